(** Masks and flags in all states *)
From Coq Require Import Lia ZifyBool ZifyNat ZifyN.
From Verif Require Import Base SigModel SigSpec SigProofs.

Definition unblocked (p : pc) : bool := match p with PUnblocked | PWait | PSleep | PBlock _ _ => true | _ => false end.
Definition fin (p : pc) : bool := match p with PTerm2 | PTerm3 | PDead _ | PExit _ => true | _ => false end.
Definition wake (p : pc) : pc := match p with PSleep => PWait | p => p end.

Lemma wake_eq : forall s, match s_pc s with PSleep => set_pc PWait s | _ => s end = set_pc (wake (s_pc s)) s.
Proof. intros s. destruct s as [p ? ? ? ? ? ? ? ? ? ? ? ?]. destruct p; reflexivity. Qed.

Definition held (c : conf) (g : sig) (s : st) : bool := s_mask s g || (c_epoll c && match s_pc s with PWait | PSleep => true | _ => false end).
Inductive gen_view (c : conf) (g : sig) (s : st) : st -> Prop :=
| gv_ign : init_disp g = Ign -> gen_view c g s s
| gv_pend : forall l, init_disp g <> Ign -> held c g s = true -> (forall h, In h l <-> In h (s_pending s) \/ h = g) ->
    gen_view c g s (set_pc (wake (s_pc s)) (set_pending l s))
| gv_deliver : init_disp g <> Ign -> held c g s = false -> gen_view c g s (deliver c g (set_pc (wake (s_pc s)) s)).
Lemma generate_view : forall c g s, plain s -> gen_view c g s (generate c g s).
Proof.
  intros c g s P. unfold generate. rewrite P.
  assert (X : init_disp g <> Ign -> gen_view c g s (if held c g s then
        let s := if member g (s_pending s) then s else set_pending (s_pending s ++ [g]) s in
        match s_pc s with PSleep => set_pc PWait s | _ => s end
      else
        let s := match s_pc s with PSleep => set_pc PWait s | _ => s end in
        deliver c g s)).
  { intros N. destruct (held c g s) eqn:H; cbv zeta; rewrite wake_eq.
    - destruct (member g (s_pending s)) eqn:M.
      + replace (set_pc (wake (s_pc s)) s) with (set_pc (wake (s_pc s)) (set_pending (s_pending s) s)) by reflexivity.
        apply gv_pend; try assumption. intros h. apply member_in in M. split; [tauto|]. intros [K|K]; subst; assumption.
      + cbn [s_pc set_pending]. apply gv_pend; try assumption. intros h. rewrite in_app_iff. cbn [In]. intuition congruence.
    - apply gv_deliver; assumption. }
  unfold held in X. destruct (init_disp g) eqn:D; [apply X; discriminate | apply gv_ign; exact D | apply X; discriminate].
Qed.

Definition clear (s : st) : Prop := s_reload s = false /\ s_reset s = false /\ s_child s = false.
Definition flags (c : conf) (s : st) : Prop :=
  match s_pc s with
  | PInit | PTasks | PPoll => clear s /\ s_term s = None
  | PTop | PReap _ => clear s
  | PWait | PSleep => c_epoll c = true -> clear s /\ s_term s = None
  | PReload | PSig2 => s_reload s = false
  | PReset | PSig3 => s_reload s = false /\ s_reset s = false
  | PCleanup | PTerm1 => clear s /\ s_term s <> None
  | PUnblocked | PBlock _ _ => c_epoll c = false
  | _ => True
  end.
Definition flagged (s : st) : Prop := s_reload s = true \/ s_reset s = true \/ s_child s = true \/ s_term s <> None.
Definition at_wait (p : pc) : bool := match p with PUnblocked | PWait | PSleep => true | _ => false end.

Record live (c : conf) (s : st) : Prop := mk_live {
  l_plain : plain s;
  l_mask : forall g, s_mask s g = if unblocked (s_pc s) then false else init_mask g;
  l_pend : c_epoll c = false -> unblocked (s_pc s) = true -> s_pending s = [];
  l_flags : flags c s;
  l_queue : c_epoll c = false -> (0 < c_cap c)%nat -> at_wait (s_pc s) = true -> flagged s -> (0 < s_queue s)%nat;
  l_sleep : s_pc s = PSleep -> if c_epoll c then s_pending s = [] else s_queue s = 0%nat;
  l_able : forall g, In g (s_pending s) -> init_disp g <> Ign
}.
Definition basic (c : conf) (s : st) : Prop := fin (s_pc s) = false -> live c s.

Lemma basic_start : forall c, live c start.
Proof. intros c. constructor; try discriminate; try (intros g; reflexivity); [repeat split|intros g []]. Qed.

Lemma nil_of : forall (l : list sig), (forall g, ~ In g l) -> l = [].
Proof. intros [|g l] H; [reflexivity|]. exfalso. apply (H g). left. reflexivity. Qed.

(** A handled signal noted before: flags only grow *)
Lemma noted_flagged : forall c l s s', noted c l s s' -> flagged s' -> flagged s \/ existsb handled l = true.
Proof.
  intros c l s s' [A1 A2 A3 A4 _] F. assert (M : forall g, member g l = true -> handled g = true -> existsb handled l = true).
  { intros g Hm Hh. apply member_in in Hm. apply existsb_exists. exists g. split; assumption. }
  destruct F as [F|[F|[F|F]]].
  - rewrite F in A1. symmetry in A1. apply orb_prop in A1 as [A|A]; [left; left; exact A | right; exact (M _ A eq_refl)].
  - rewrite F in A2. symmetry in A2. apply orb_prop in A2 as [A|A]; [left; right; left; exact A | right; exact (M _ A eq_refl)].
  - rewrite F in A3. symmetry in A3. apply orb_prop in A3 as [A|A]; [left; right; right; left; exact A | right; exact (M _ A eq_refl)].
  - destruct A4 as [[E _]|(g & E & T & I)]; [left; right; right; right; congruence|].
    right. apply existsb_exists. exists g. split; [exact I|]. destruct g; try discriminate; reflexivity.
Qed.

(** Flags in a state where signals are blocked do not change *)
Lemma generate_live : forall c g s, live c s -> fin (s_pc s) = false -> basic c (generate c g s).
Proof.
  intros c g s L F. destruct (generate_view c g s (l_plain _ _ L)) as [E|l N H I|N H].
  - intros _. exact L.
  - intros _. destruct L as [L1 L2 L3 L4 L5 L6 L7].
    assert (Hl : c_epoll c = false -> unblocked (s_pc s) = true -> False).
    { intros Ep U. unfold held in H. rewrite (L2 g), U, Ep in H. discriminate. }
    constructor; cbn [s_pc set_pc set_pending s_pending s_mask s_queue].
    + exact L1.
    + intros h. rewrite (L2 h). destruct (s_pc s); reflexivity.
    + intros Ep U. exfalso. apply (Hl Ep). destruct (s_pc s); try discriminate; reflexivity.
    + unfold flags in *. cbn [s_pc set_pc set_pending]. destruct (s_pc s); exact L4.
    + intros Ep Cap W Fl. apply (L5 Ep Cap); [destruct (s_pc s); try discriminate; reflexivity | exact Fl].
    + destruct (s_pc s); discriminate.
    + intros h Hh. apply I in Hh as [Hh | ->]; [apply L7; exact Hh | exact N].
  - destruct L as [L1 L2 L3 L4 L5 L6 L7]. set (s1 := set_pc (wake (s_pc s)) s).
    pose proof (deliver_frame c g s1) as Fr. intros Ff.
    assert (O : over (deliver c g s1) = false) by (unfold over; destruct (s_pc (deliver c g s1)); try discriminate; reflexivity).
    destruct (frame_over _ _ Fr O) as [O1 Epc]. assert (P1 : plain s1) by exact L1.
    destruct (deliver_noted c g s1 P1 O) as [Nt Sp].
    assert (Hm : s_mask s g = false) by (unfold held in H; destruct (s_mask s g); [discriminate|reflexivity]).
    assert (Hun : unblocked (s_pc s) = false -> init_mask g = false) by (intros U; rewrite (L2 g), U in Hm; exact Hm).
    assert (Hd : init_mask g = false -> handled g = false) by (destruct g; try discriminate; reflexivity).
    assert (Same : unblocked (s_pc s) = false -> (s_reload (deliver c g s1) = s_reload s /\ s_reset (deliver c g s1) = s_reset s /\ s_child (deliver c g s1) = s_child s) /\ s_term (deliver c g s1) = s_term s).
    { intros U. destruct Nt as [A1 A2 A3 A4 _]. apply Hun, Hd in U. clear - A1 A2 A3 A4 U. destruct g; try discriminate; cbn in A1, A2, A3;
        rewrite A1, A2, A3, !orb_false_r; (split; [repeat split|]); (destruct A4 as [[E _]|(h & _ & T & [<-|[]])]; [exact E|discriminate]). }
    assert (Ew : wake (s_pc s) = s_pc s \/ (s_pc s = PSleep /\ wake (s_pc s) = PWait)) by (destruct (s_pc s); auto).
    assert (Ep2 : s_pc (deliver c g s1) = wake (s_pc s)) by exact Epc.
    constructor.
    + intros h. rewrite (f_disp _ _ Fr). apply L1.
    + intros h. rewrite (f_mask _ _ Fr), Ep2. cbn [s_mask set_pc s1]. unfold s1. cbn [s_mask set_pc]. rewrite (L2 h). destruct (s_pc s); reflexivity.
    + intros Ep U. rewrite Sp. unfold s1. cbn [s_pending set_pc]. apply (L3 Ep). rewrite Ep2 in U. destruct (s_pc s); try discriminate; reflexivity.
    + unfold flags in *. rewrite Ep2. destruct (unblocked (s_pc s)) eqn:U.
      * unfold held in H. destruct (s_pc s); try discriminate U; cbn [wake] in *; try exact L4; intros Ep; rewrite Ep in H; rewrite orb_true_r in H; discriminate.
      * destruct (Same eq_refl) as [(R1 & R2 & R3) R4]. unfold clear in *. destruct (s_pc s); try discriminate U; cbn [wake]; rewrite ?R1, ?R2, ?R3, ?R4; exact L4.
    + intros Ep Cap W Fl. destruct (existsb handled [g]) eqn:Hh; [exact (n_queue _ _ _ _ Nt Ep Cap Hh)|].
      destruct (noted_flagged _ _ _ _ Nt Fl) as [Fl0|X]; [|congruence].
      pose proof (f_queue _ _ Fr) as Q. assert (Q0 : (0 < s_queue s)%nat); [|change (s_queue s1) with (s_queue s) in Q; lia].
      apply (L5 Ep Cap); [rewrite Ep2 in W; destruct (s_pc s); try discriminate; reflexivity|exact Fl0].
    + rewrite Ep2. destruct (s_pc s); discriminate.
    + intros h Hh. rewrite Sp in Hh. apply L7. exact Hh.
Qed.

(** Changes of the program counter alone *)
Lemma deliver_all_view : forall c order s s', plain s -> deliver_all c order s = Some s' ->
  exists s1, s' = say TOpen s1 /\ frame s s1 /\
    (over s1 = false -> s_pending s1 = [] /\ noted c (s_pending s) s s1).
Proof.
  intros c order s s' P H. unfold deliver_all in H. destruct (same order (s_pending s)) eqn:E; [|discriminate]. injection H as <-.
  exists (fold_left (deliver1 c) order s). split; [reflexivity|]. split; [apply fold_frame|]. intros O.
  destruct (fold_noted c order s P O) as [N Q]. pose proof (same_in _ _ E) as I. split.
  - apply nil_of. intros g X. apply Q in X as [X Y]. apply Y, I, X.
  - assert (M : forall g, member g order = member g (s_pending s)).
    { intros g. destruct (member g order) eqn:A, (member g (s_pending s)) eqn:B; try reflexivity.
      - apply member_in, I, member_in in A. congruence.
      - apply member_in, I, member_in in B. congruence. }
    assert (Mx : forall f, existsb f order = existsb f (s_pending s)).
    { intros f. destruct (existsb f order) eqn:A, (existsb f (s_pending s)) eqn:B; try reflexivity.
      - apply existsb_exists in A as (g & G & K). apply I in G. assert (existsb f (s_pending s) = true) by (apply existsb_exists; exists g; split; assumption). congruence.
      - apply existsb_exists in B as (g & G & K). apply I in G. assert (existsb f order = true) by (apply existsb_exists; exists g; split; assumption). congruence. }
    destruct N as [N1 N2 N3 N4 N5]. constructor; rewrite <- ?M, <- ?Mx; try assumption.
    destruct N4 as [N4|(g & A & B & D)]; [left; exact N4|right; exists g; split; [exact A|]; split; [exact B|apply I; exact D]].
Qed.

Lemma goto_over : forall p s, over (goto p s) = false -> over s = false /\ goto p s = set_pc p s.
Proof. intros p s H. unfold goto in *. destruct (over s) eqn:O; [congruence|]. split; reflexivity. Qed.
Lemma goto_fin : forall p s, fin (s_pc (goto p s)) = false -> over s = false /\ goto p s = set_pc p s.
Proof.
  intros p s H. unfold goto in *. destruct (over s) eqn:O; [|split; reflexivity].
  unfold over in O. destruct (s_pc s); try discriminate.
Qed.
Lemma wait_live : forall c order w s s', live c s -> s_pc s = PWait -> wait_step c order w s = Some s' -> basic c s'.
Proof.
  intros c order w s s' L Epc H Ff. destruct L as [L1 L2 L3 L4 L5 L6 L7]. rewrite Epc in *. unfold flags in L4. rewrite Epc in L4. unfold wait_step in H.
  destruct (c_epoll c) eqn:Ep.
  - destruct (L4 eq_refl) as [(C1 & C2 & C3) C4]. destruct w as [| |async l|l].
    + destruct (s_pending s) eqn:Es; [|discriminate]. injection H as <-. constructor; cbn [s_pc set_pc s_mask s_pending]; try discriminate; try assumption.
      * intros _ _. exact Es.
      * unfold flags. cbn [s_pc set_pc]. intros _. split; [repeat split|]; assumption.
      * intros X. congruence.
      * intros _. rewrite Ep. exact Es.
      * rewrite Es. exact L7.
    + destruct (s_pending s) eqn:Es; [discriminate|]. destruct (deliver_all c order s) as [s1|] eqn:D; [|discriminate]. cbn [option_map] in H. injection H as <-.
      destruct (deliver_all_view _ _ _ _ L1 D) as (s2 & -> & Fr & X). destruct (goto_fin _ _ Ff) as [O ->]. destruct (X O) as [Sp Nt].
      constructor; cbn [s_pc set_pc s_mask set_mask say s_pending s_queue]; try discriminate.
      * intros g. cbn [s_disp set_pc set_mask say]. rewrite (f_disp _ _ Fr). apply L1.
      * intros g. reflexivity.
      * exact I.
      * cbn [s_pending set_pc set_mask say]. rewrite Sp. intros g [].
    + destruct (forallb (fun g => member g (s_pending s)) l && (negb async || (0 <? s_queue s)%nat)); [|discriminate]. injection H as <-.
      destruct (goto_fin _ _ Ff) as [O ->]. pose proof (fold_frame c l s) as Fr. destruct (fold_noted c l s L1 O) as [Nt Sp].
      constructor; cbn [s_pc set_pc s_mask set_mask say s_pending s_queue]; try discriminate.
      * intros g. cbn [s_disp set_pc set_mask say]. rewrite (f_disp _ _ Fr). apply L1.
      * intros g. reflexivity.
      * exact I.
      * intros g Hg. apply Sp in Hg as [Hg _]. apply L7. exact Hg.
    + destruct (forallb (fun g => member g (s_pending s)) l); [|discriminate]. injection H as <-.
      destruct (goto_fin _ _ Ff) as [O ->]. pose proof (fold_frame c l s) as Fr. destruct (fold_noted c l s L1 O) as [Nt Sp].
      constructor; cbn [s_pc set_pc s_mask set_mask say s_pending s_queue]; try discriminate.
      * intros g. cbn [s_disp set_pc set_mask say]. rewrite (f_disp _ _ Fr). apply L1.
      * intros g. reflexivity.
      * exact I.
      * intros g Hg. apply Sp in Hg as [Hg _]. apply L7. exact Hg.
  - assert (X : forall p, unblocked p = true -> fin p = false -> (at_wait p = true -> p = PSleep /\ s_queue s = 0%nat) -> p <> PWait -> live c (set_pc p s)).
    { intros p U Fp W Np. constructor; cbn [s_pc set_pc s_mask s_pending s_queue]; try assumption.
      - intros g. rewrite (L2 g), U. reflexivity.
      - intros _ _. apply L3; reflexivity.
      - unfold flags. cbn [s_pc set_pc]. destruct p; try discriminate U; try exact Ep; intros; congruence.
      - intros _ Cap W2 Fl. apply (L5 eq_refl Cap eq_refl). exact Fl.
      - intros ->. rewrite Ep. apply W. reflexivity. }
    destruct w as [| |async l|l].
    + destruct (Nat.eqb_spec (s_queue s) 0); [|discriminate]. injection H as <-. apply X; try reflexivity; [intros _; split; [reflexivity|assumption]|discriminate].
    + injection H as <-. apply X; try reflexivity; discriminate.
    + destruct (negb async || (0 <? s_queue s)%nat); [|discriminate]. injection H as <-. apply X; try reflexivity; discriminate.
    + injection H as <-. apply X; try reflexivity; discriminate.
Qed.

Ltac live_parts L Epc := destruct L as [L1 L2 L3 L4 L5 L6 L7]; rewrite Epc in *; unfold flags in L4; rewrite Epc in L4; cbn [unblocked at_wait] in *.
Lemma next_live : forall c order w s s', live c s -> next c order w s = Some s' -> basic c s'.
Proof.
  intros c order w s s' L H. unfold next in H. destruct (s_pc s) eqn:Epc; try discriminate.
  - injection H as <-. intros _. live_parts L Epc. constructor; cbn [s_pc set_pc]; try discriminate; try assumption. unfold flags. cbn [s_pc set_pc]. apply L4.
  - live_parts L Epc. destruct (s_term s) eqn:Et; injection H as <-; intros _; constructor; cbn [s_pc set_pc say]; try discriminate; try assumption;
      unfold flags; cbn [s_pc set_pc say s_term]; split; try assumption; rewrite Et; discriminate || reflexivity.
  - injection H as <-. intros _. live_parts L Epc. constructor; cbn [s_pc set_pc]; try discriminate; try assumption.
  - live_parts L Epc. destruct (c_epoll c) eqn:Ep.
    + injection H as <-. intros _. constructor; cbn [s_pc set_pc set_mask s_mask s_pending]; try discriminate; try assumption; try (intros; congruence); try (intros g; reflexivity).
      unfold flags. cbn [s_pc set_pc]. intros _. exact L4.
    + destruct (deliver_all c order (set_mask no_mask s)) as [s1|] eqn:D; [|discriminate]. injection H as <-. intros Ff.
      destruct (deliver_all_view _ _ _ _ (L1 : plain (set_mask no_mask s)) D) as (s2 & -> & Fr & X). destruct (goto_fin _ _ Ff) as [O ->]. destruct (X O) as [Sp Nt].
      destruct L4 as [(C1 & C2 & C3) C4].
      constructor; cbn [s_pc set_pc s_mask set_mask say s_pending s_queue]; try discriminate.
      * intros g. cbn [s_disp set_pc say]. rewrite (f_disp _ _ Fr). apply L1.
      * intros g. rewrite (f_mask _ _ Fr). reflexivity.
      * intros _ _. exact Sp.
      * exact Ep.
      * intros _ Cap _ Fl. destruct (existsb handled (s_pending (set_mask no_mask s))) eqn:Hh; [exact (n_queue _ _ _ _ Nt Ep Cap Hh)|].
        destruct (noted_flagged _ _ _ _ Nt Fl) as [Fl0|Y]; [|congruence]. exfalso. unfold flagged in Fl0. cbn [s_reload s_reset s_child s_term set_mask] in Fl0.
        rewrite C1, C2, C3, C4 in Fl0. destruct Fl0 as [?|[?|[?|?]]]; congruence.
      * rewrite Sp. intros g [].
  - injection H as <-. intros _. live_parts L Epc. constructor; cbn [s_pc set_pc]; try discriminate; try assumption. unfold flags. cbn [s_pc set_pc]. intros; congruence.
  - exact (wait_live _ _ _ _ _ L Epc H).
  - assert (Lw : live c (set_pc PWait s)) by (live_parts L Epc; constructor; cbn [s_pc set_pc]; try discriminate; assumption).
    destruct w; try discriminate; exact (wait_live _ _ _ _ _ Lw eq_refl H).
  - injection H as <-. intros _. live_parts L Epc. destruct ready; constructor; cbn [s_pc set_pc set_mask s_mask s_pending]; try discriminate; try assumption; try (intros g; reflexivity); exact I.
  - injection H as <-. intros _. live_parts L Epc. destruct async; constructor; cbn [s_pc set_pc set_queue]; try discriminate; try assumption; exact I.
  - injection H as <-. intros _. live_parts L Epc. destruct (s_reload s) eqn:Er; constructor; cbn [s_pc set_pc set_reload say]; try discriminate; try assumption; unfold flags; cbn [s_pc set_pc set_reload say s_reload]; try assumption; reflexivity.
  - injection H as <-. intros _. live_parts L Epc. constructor; cbn [s_pc set_pc]; try discriminate; assumption.
  - injection H as <-. intros _. live_parts L Epc. destruct (s_reset s) eqn:Er; constructor; cbn [s_pc set_pc set_reset say]; try discriminate; try assumption; unfold flags; cbn [s_pc set_pc set_reset say s_reload s_reset]; split; try assumption; reflexivity.
  - injection H as <-. intros _. live_parts L Epc. constructor; cbn [s_pc set_pc]; try discriminate; assumption.
  - injection H as <-. intros _. live_parts L Epc. destruct L4 as [A B]. destruct (s_child s) eqn:Er; constructor; cbn [s_pc set_pc set_child]; try discriminate; try assumption; unfold flags; cbn [s_pc set_pc set_child]; unfold clear; cbn [s_reload s_reset s_child set_pc set_child]; repeat split; assumption.
  - live_parts L Epc. assert (Z : forall s2, s_mask s2 = s_mask s -> s_disp s2 = s_disp s -> s_pending s2 = s_pending s -> s_reload s2 = s_reload s -> s_reset s2 = s_reset s -> s_child s2 = s_child s ->
       (s_pc s2 = PTop \/ exists j, s_pc s2 = PReap j) -> live c s2).
    { intros s2 E1 E2 E3 E4 E5 E6 E7. constructor.
      - intros g. rewrite E2. apply L1.
      - intros g. rewrite E1, L2. destruct E7 as [->|[j ->]]; reflexivity.
      - destruct E7 as [->|[j ->]]; discriminate.
      - unfold flags. destruct E7 as [->|[j ->]]; unfold clear; rewrite E4, E5, E6; exact L4.
      - destruct E7 as [->|[j ->]]; discriminate.
      - destruct E7 as [->|[j ->]]; discriminate.
      - rewrite E3. exact L7. }
    destruct (nth_error (s_pids s) i); [destruct (find_kid n (s_kids s)) as [k|]; [destruct (k_ended k)|]|]; injection H as <-; intros _; apply Z; try reflexivity;
      cbn [s_pc say set_kids set_pids set_pc]; rewrite ?Epc; eauto.
  - injection H as <-. intros _. live_parts L Epc. constructor; cbn [s_pc set_pc]; try discriminate; assumption.
  - destruct (s_term s); [|discriminate]. injection H as <-. discriminate.
  - live_parts L Epc. destruct (deliver_all c order (set_mask no_mask s)); [|discriminate]. injection H as <-. intros Ff. destruct (goto_fin _ _ Ff) as [_ E]. rewrite E in Ff. discriminate.
  - destruct (s_term s); [|discriminate]. injection H as <-. intros Ff. destruct (goto_fin _ _ Ff) as [_ E]. rewrite E in Ff. discriminate.
Qed.

Lemma generate_fin : forall c g s, fin (s_pc s) = true -> fin (s_pc (generate c g s)) = true.
Proof.
  intros c g s F. assert (D : forall s, fin (s_pc s) = true -> fin (s_pc (deliver c g s)) = true).
  { intros s2 F2. destruct (f_pc _ _ (deliver_frame c g s2)) as [->|[h ->]]; [exact F2|reflexivity]. }
  unfold generate. destruct (s_disp s g); try exact F;
    (destruct (s_mask s g || _); cbv zeta; rewrite wake_eq;
     [destruct (member g (s_pending s)); cbn [s_pc set_pc set_pending]; destruct (s_pc s); try discriminate; reflexivity
     | apply D; cbn [s_pc set_pc]; destruct (s_pc s); try discriminate; reflexivity]).
Qed.

Lemma live_same : forall c s s', s_pc s' = s_pc s -> s_mask s' = s_mask s -> s_disp s' = s_disp s -> s_pending s' = s_pending s ->
  s_reload s' = s_reload s -> s_reset s' = s_reset s -> s_child s' = s_child s -> s_term s' = s_term s ->
  (s_queue s <= s_queue s')%nat -> (s_pc s = PSleep -> s_queue s' = s_queue s) -> live c s -> live c s'.
Proof.
  intros c s s' E1 E2 E3 E4 E5 E6 E7 E8 E9 E10 [L1 L2 L3 L4 L5 L6 L7]. constructor; rewrite ?E1, ?E4; try assumption.
  - intros g. rewrite E3. apply L1.
  - intros g. rewrite E2. apply L2.
  - unfold flags, clear in *. rewrite E1, E5, E6, E7, E8. exact L4.
  - intros Ep Cap W Fl. assert (0 < s_queue s)%nat; [|lia]. apply (L5 Ep Cap W). unfold flagged in *. rewrite <- E5, <- E6, <- E7, <- E8. exact Fl.
  - intros Es. destruct (c_epoll c); [exact (L6 Es)|]. rewrite (E10 Es). exact (L6 Es).
Qed.

Lemma enqueue_frame : forall c s, frame s (enqueue c s).
Proof. intros c s. unfold enqueue. destruct (s_queue s <? c_cap c)%nat; constructor; try reflexivity; try (left; reflexivity); cbn [s_queue set_queue]; lia. Qed.
Lemma enqueue_rest : forall c s, s_pc (enqueue c s) = s_pc s /\ s_pending (enqueue c s) = s_pending s /\ s_reload (enqueue c s) = s_reload s /\ s_reset (enqueue c s) = s_reset s /\
  s_child (enqueue c s) = s_child s /\ s_term (enqueue c s) = s_term s.
Proof. intros c s. unfold enqueue. destruct (s_queue s <? c_cap c)%nat; repeat split. Qed.
Lemma wake_live : forall c s, live c s -> live c (set_pc (wake (s_pc s)) s).
Proof.
  intros c s [L1 L2 L3 L4 L5 L6 L7]. constructor; cbn [s_pc set_pc s_mask s_pending s_queue]; try assumption.
  - intros g. rewrite (L2 g). destruct (s_pc s); reflexivity.
  - intros Ep U. apply (L3 Ep). destruct (s_pc s); try discriminate; reflexivity.
  - unfold flags in *. cbn [s_pc set_pc]. destruct (s_pc s); exact L4.
  - intros Ep Cap W Fl. apply (L5 Ep Cap); [destruct (s_pc s); try discriminate; reflexivity | exact Fl].
  - destruct (s_pc s); discriminate.
Qed.

Lemma step_fin : forall c s e s', fin (s_pc s) = true -> step c s e = Some s' -> fin (s_pc s') = true.
Proof.
  intros c s e s' F H. unfold step in H. destruct (over s); [discriminate|]. destruct e.
  - injection H as <-. apply generate_fin. exact F.
  - destruct (find_kid pid (s_kids s)) as [k|]; [|discriminate]. destruct (k_ended k); [discriminate|]. injection H as <-. apply generate_fin. exact F.
  - destruct (known pid s); [discriminate|]. injection H as <-. exact F.
  - destruct (find_kid pid (s_kids s)) as [[? [|] [|]]|]; try discriminate. injection H as <-. exact F.
  - injection H as <-. rewrite wake_eq. destruct (enqueue_rest c (set_pc (wake (s_pc s)) s)) as (-> & _). cbn [s_pc set_pc]. destruct (s_pc s); try discriminate; reflexivity.
  - destruct (s_forked s); [discriminate|]. destruct (known pid s || negb (runs_commands (s_pc s))); [discriminate|]. injection H as <-. exact F.
  - destruct (s_forked s); [|discriminate]. injection H as <-. exact F.
  - destruct (s_forked s); [discriminate|]. unfold next in H. destruct (s_pc s) eqn:E; try discriminate.
    + destruct (deliver_all c order (set_mask no_mask s)); [|discriminate]. injection H as <-. unfold goto. destruct (over s0) eqn:O; [unfold over in O; destruct (s_pc s0); try discriminate; reflexivity|reflexivity].
    + destruct (s_term s); [|discriminate]. injection H as <-. unfold goto. destruct (over (deliver c s0 s)) eqn:O; [unfold over in O; destruct (s_pc (deliver c s0 s)); try discriminate; reflexivity|reflexivity].
Qed.

Lemma step_basic : forall c s e s', basic c s -> step c s e = Some s' -> basic c s'.
Proof.
  intros c s e s' B H F'. destruct (fin (s_pc s)) eqn:F; [pose proof (step_fin _ _ _ _ F H); congruence|]. specialize (B F).
  revert F'. change (basic c s'). unfold step in H. destruct (over s); [discriminate|]. destruct e.
  - injection H as <-. apply generate_live; [|exact F]. apply (live_same c s); try reflexivity. exact B.
  - destruct (find_kid pid (s_kids s)) as [k|]; [|discriminate]. destruct (k_ended k); [discriminate|]. injection H as <-.
    apply generate_live; [|exact F]. apply (live_same c s); try reflexivity. exact B.
  - destruct (known pid s); [discriminate|]. injection H as <-. intros _. apply (live_same c s); try reflexivity. exact B.
  - destruct (find_kid pid (s_kids s)) as [[? [|] [|]]|]; try discriminate. injection H as <-. intros _. apply (live_same c s); try reflexivity. exact B.
  - injection H as <-. intros _. rewrite wake_eq. pose proof (wake_live c s B) as W. pose proof (enqueue_frame c (set_pc (wake (s_pc s)) s)) as Fr.
    destruct (enqueue_rest c (set_pc (wake (s_pc s)) s)) as (E1 & E2 & E3 & E4 & E5 & E6).
    apply (live_same c (set_pc (wake (s_pc s)) s)); try assumption; try (apply Fr). cbn [s_pc set_pc]. destruct (s_pc s); discriminate.
  - destruct (s_forked s); [discriminate|]. destruct (known pid s || negb (runs_commands (s_pc s))); [discriminate|]. injection H as <-. intros _.
    apply (live_same c s); try reflexivity. exact B.
  - destruct (s_forked s); [|discriminate]. injection H as <-. intros _. apply (live_same c s); try reflexivity. exact B.
  - destruct (s_forked s); [discriminate|]. exact (next_live _ _ _ _ _ B H).
Qed.
Lemma run_basic : forall c s, run c s -> basic c s.
Proof. intros c s H. induction H as [|s e s' H IH E]; [intros _; apply basic_start | exact (step_basic _ _ _ _ IH E)]. Qed.
