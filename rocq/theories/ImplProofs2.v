(** Proofs about the memory of sessions: what each object belongs to *)
From Verif Require Import Base BufferModel MethodModel NameModel NameSpec ImplModel ImplSpec.
From Coq Require Import Permutation.
Notation length := List.length.

Lemma length_upd : forall h p c, length (upd h p c) = length h.
Proof. induction h as [|x h IH]; intros [|p] c; cbn; auto. Qed.
Lemma upd_other : forall h p c q, q <> p -> nth_error (upd h p c) q = nth_error h q.
Proof. induction h as [|x h IH]; intros [|p] c [|q] H; cbn; auto; congruence. Qed.
Lemma upd_same : forall h p c x, nth_error h p = Some x -> nth_error (upd h p c) p = Some c.
Proof. induction h as [|y h IH]; intros [|p] c x H; cbn in *; try discriminate; auto. eapply IH; eauto. Qed.

Inductive owner := OCell (c : nat) | OPart (x : impl * option nat) | OSess (s : nat) (p : provider) (parts : list (impl * option nat)) | OSlot (x : slot).

Section world.
  Variable U : impl -> Prop.
  Variable ms : list (provider * method).

  Definition part_ok (h : heap) (x : impl * option nat) : Prop :=
    U (fst x) /\
    match snd x with
    | None => fst x = NullMemcpy
    | Some q =>
        fst x <> NullMemcpy /\
        match fst x with
        | AesOpenssl => exists e d, nth_error h q = Some (mk_cell (State AesOpenssl (Some e)) [] true) /\ nth_error h e = Some (mk_cell Evp d true)
        | i => exists d, nth_error h q = Some (mk_cell (State i None) d true)
        end
    end.
  Definition sess_ok (h : heap) (s : nat) (p : provider) (parts : list (impl * option nat)) : Prop :=
    nth_error h s = Some (mk_cell (Session p parts) [] true).
  Definition slot_ok (h : heap) (x : slot) : Prop :=
    match sl_method x, sl_state x with
    | None, None => True
    | None, Some _ => False
    | Some k, None => k < length ms
    | Some k, Some s => exists p m parts, nth_error ms k = Some (p, m) /\ sess_ok h s p parts /\ length parts = fields p /\ Forall (part_ok h) parts
    end.
  Definition ok (h : heap) (o : owner) : Prop :=
    match o with
    | OCell c => exists d, nth_error h c = Some (mk_cell Peer d true)
    | OPart x => part_ok h x
    | OSess s p parts => sess_ok h s p parts
    | OSlot x => slot_ok h x
    end.
  Definition fp (h : heap) (o : owner) : list nat :=
    match o with
    | OCell c => [c]
    | OPart x => holds_part h x
    | OSess s _ _ => [s]
    | OSlot x => holds_slot h x
    end.
  Definition cnt (h : heap) (o : owner) (q : nat) : nat := count_occ Nat.eq_dec (fp h o) q.
  Fixpoint total (h : heap) (O : list owner) (q : nat) : nat :=
    match O with [] => 0 | o :: r => cnt h o q + total h r q end.
  Definition alive (h : heap) (q : nat) : nat :=
    match nth_error h q with Some c => if c_live c then 1 else 0 | None => 0 end.
  Definition dead_clean (h : heap) : Prop :=
    forall q c, nth_error h q = Some c -> c_live c = false -> c_what c <> Peer -> clean c.
  Definition World (h : heap) (O : list owner) : Prop :=
    Forall (ok h) O /\ (forall q, total h O q = alive h q) /\ dead_clean h.

  Lemma part_dep : forall h h' x, (forall q, In q (holds_part h x) -> nth_error h' q = nth_error h q) -> part_ok h x ->
    part_ok h' x /\ holds_part h' x = holds_part h x.
  Proof.
    intros h h' [i [q|]] H [K P]; unfold part_ok, holds_part in *; cbn [fst snd] in *; [|auto].
    assert (Hq : nth_error h' q = nth_error h q) by (apply H; now left).
    split; [|now rewrite Hq]. split; [exact K|]. destruct P as [N P]. split; [exact N|].
    destruct i; try (rewrite Hq; exact P).
    destruct P as (e & d & P & Q). exists e, d. rewrite Hq. split; [exact P|]. rewrite P in H. rewrite H; [exact Q|]. right. now left.
  Qed.
  Lemma parts_dep : forall h h' l, (forall q, In q (flat_map (holds_part h) l) -> nth_error h' q = nth_error h q) -> Forall (part_ok h) l ->
    Forall (part_ok h') l /\ flat_map (holds_part h') l = flat_map (holds_part h) l.
  Proof.
    intros h h' l. induction l as [|x l IH]; intros H F; [auto|]. apply Forall_cons_iff in F. destruct F as [F1 F2]. cbn [flat_map] in *.
    destruct (part_dep h h' x) as [P Q]; [intros q Hq; apply H, in_or_app; now left|exact F1|].
    destruct IH as [P' Q']; [intros q Hq; apply H, in_or_app; now right|exact F2|].
    split; [now constructor|now rewrite Q, Q'].
  Qed.
  Lemma dep : forall h h' o, (forall q, In q (fp h o) -> nth_error h' q = nth_error h q) -> ok h o -> ok h' o /\ fp h' o = fp h o.
  Proof.
    intros h h' [c|x|s p parts|x] H K; cbn [ok fp] in *.
    - split; [|reflexivity]. rewrite H; [exact K|now left].
    - now apply part_dep.
    - split; [|reflexivity]. unfold sess_ok. rewrite H; [exact K|now left].
    - unfold slot_ok, holds_slot in *. destruct (sl_method x) as [k|], (sl_state x) as [s|]; try (split; auto; fail); try contradiction.
      destruct K as (p & m & parts & K1 & K2 & K3 & K4). unfold holds_session in *.
      assert (Hs : nth_error h' s = nth_error h s) by (apply H; now left).
      rewrite Hs. unfold sess_ok in K2. rewrite K2 in *.
      destruct (parts_dep h h' parts) as [P Q]; [intros q Hq; apply H; now right|exact K4|].
      split; [|now rewrite Q]. exists p, m, parts. repeat split; auto.
  Qed.

  Lemma total_in : forall h O q o, In o O -> In q (fp h o) -> 1 <= total h O q.
  Proof.
    intros h O q o H Hq. induction O as [|o' O IH]; [contradiction|]. cbn. destruct H as [->|H].
    - apply (count_occ_In Nat.eq_dec) in Hq. unfold cnt. lia.
    - specialize (IH H). lia.
  Qed.
  Lemma in_total : forall h O q, 1 <= total h O q -> exists o, In o O /\ In q (fp h o).
  Proof.
    intros h O q. induction O as [|o O IH]; cbn; intros H; [lia|].
    destruct (Nat.eq_dec (cnt h o q) 0) as [E|E].
    - destruct IH as (o' & P & Q); [lia|]. exists o'. auto.
    - exists o. split; [now left|]. unfold cnt in E. apply (count_occ_In Nat.eq_dec). lia.
  Qed.
  Lemma alive_le : forall h q, alive h q <= 1.
  Proof. intros h q. unfold alive. destruct (nth_error h q) as [c|]; [destruct (c_live c)|]; lia. Qed.
  Lemma total_dep : forall h h' O, (forall q, (exists o, In o O /\ In q (fp h o)) -> nth_error h' q = nth_error h q) -> Forall (ok h) O ->
    Forall (ok h') O /\ forall q, total h' O q = total h O q.
  Proof.
    intros h h' O. induction O as [|o O IH]; intros H F; [auto|]. apply Forall_cons_iff in F. destruct F as [F1 F2].
    destruct (dep h h' o) as [P Q]; [intros q Hq; apply H; exists o; split; [now left|exact Hq]|exact F1|].
    destruct IH as [P' Q']; [intros q (o' & A & B); apply H; exists o'; split; [now right|exact B]|exact F2|].
    split; [now constructor|]. intros q. cbn. rewrite Q'. unfold cnt. now rewrite Q.
  Qed.

  (** objects of one owner are no other's *)
  Lemma apart : forall h o O q, World h (o :: O) -> In q (fp h o) -> total h O q = 0.
  Proof.
    intros h o O q (_ & T & _) H. specialize (T q). cbn in T. apply (count_occ_In Nat.eq_dec) in H. unfold cnt in T. pose proof (alive_le h q). lia.
  Qed.
  Lemma rest_same : forall h h' o O, World h (o :: O) -> (forall q, ~ In q (fp h o) -> nth_error h' q = nth_error h q) ->
    Forall (ok h') O /\ forall q, total h' O q = total h O q.
  Proof.
    intros h h' o O W H. apply total_dep.
    - intros q (o' & A & B). apply H. intros C. pose proof (apart h o O q W C) as Z. pose proof (total_in h O q o' A B). lia.
    - destruct W as (F & _). now inversion F.
  Qed.

  Lemma drop : forall h h' o O, World h (o :: O) -> (forall q, ~ In q (fp h o) -> nth_error h' q = nth_error h q) ->
    (forall q, In q (fp h o) -> exists c, nth_error h' q = Some c /\ c_live c = false /\ (c_what c <> Peer -> clean c)) -> World h' O.
  Proof.
    intros h h' o O W H D. destruct (rest_same h h' o O W H) as [F T]. split; [exact F|]. split.
    - intros q. rewrite T. destruct (in_dec Nat.eq_dec q (fp h o)) as [I|I].
      + rewrite (apart h o O q W I). destruct (D q I) as (c & P & Q & _). unfold alive. now rewrite P, Q.
      + destruct W as (_ & T0 & _). specialize (T0 q). cbn in T0. apply (count_occ_not_In Nat.eq_dec) in I as I'. unfold cnt in T0. rewrite I' in T0.
        unfold alive. rewrite (H q I). exact T0.
    - intros q c E L K. destruct (in_dec Nat.eq_dec q (fp h o)) as [I|I].
      + destruct (D q I) as (c' & P & _ & Q). assert (c' = c) by congruence. subst c'. auto.
      + destruct W as (_ & _ & Z). apply (Z q c); auto. now rewrite <- (H q I).
  Qed.

  Lemma keep : forall h h' o o' O, World h (o :: O) -> (forall q, ~ In q (fp h o) -> nth_error h' q = nth_error h q) ->
    ok h' o' -> fp h' o' = fp h o -> (forall q, In q (fp h o) -> alive h' q = 1) -> World h' (o' :: O).
  Proof.
    intros h h' o o' O W H K E A. destruct (rest_same h h' o O W H) as [F T]. split; [now constructor|]. split.
    - intros q. cbn. rewrite T. unfold cnt. rewrite E. destruct W as (_ & T0 & _). specialize (T0 q). cbn in T0. unfold cnt in T0. rewrite T0.
      destruct (in_dec Nat.eq_dec q (fp h o)) as [I|I].
      + rewrite (A q I). apply (count_occ_In Nat.eq_dec) in I. pose proof (alive_le h q). lia.
      + unfold alive. now rewrite (H q I).
    - intros q c E1 L N. destruct (in_dec Nat.eq_dec q (fp h o)) as [I|I].
      + exfalso. specialize (A q I). unfold alive in A. rewrite E1, L in A. discriminate.
      + destruct W as (_ & _ & Z). apply (Z q c); auto. now rewrite <- (H q I).
  Qed.

  Lemma bounded : forall h O o q, World h O -> In o O -> In q (fp h o) -> q < length h.
  Proof.
    intros h O o q (_ & T & _) I J. specialize (T q). pose proof (total_in h O q o I J) as Z. unfold alive in T.
    destruct (nth_error h q) eqn:E; [|lia]. apply nth_error_Some. congruence.
  Qed.

  Lemma more : forall h h' o O, World h O -> (forall q, q < length h -> nth_error h' q = nth_error h q) ->
    ok h' o -> (forall q, q < length h -> ~ In q (fp h' o)) ->
    (forall q, length h <= q -> alive h' q = cnt h' o q) -> (forall q c, length h <= q -> nth_error h' q = Some c -> c_live c = true) ->
    World h' (o :: O).
  Proof.
    intros h h' o O W H K N A L.
    assert (X : Forall (ok h') O /\ forall q, total h' O q = total h O q).
    { apply total_dep; [|apply W]. intros q (o' & P & Q). apply H. exact (bounded h O o' q W P Q). }
    destruct X as [F T]. split; [now constructor|]. split.
    - intros q. cbn. rewrite T. destruct W as (_ & T0 & _). rewrite T0. destruct (Nat.lt_ge_cases q (length h)) as [Q|Q].
      + specialize (N q Q). apply (count_occ_not_In Nat.eq_dec) in N. unfold cnt. rewrite N. unfold alive. now rewrite (H q Q).
      + rewrite (A q Q). unfold alive at 1. apply nth_error_None in Q. rewrite Q. lia.
    - intros q c E Z P. destruct (Nat.lt_ge_cases q (length h)) as [Q|Q].
      + destruct W as (_ & _ & D). apply (D q c); auto. now rewrite <- (H q Q).
      + specialize (L q c Q E). congruence.
  Qed.

  Lemma total_perm : forall h O O' q, Permutation O O' -> total h O q = total h O' q.
  Proof. intros h O O' q P. induction P; cbn; lia. Qed.
  Lemma World_perm : forall h O O', Permutation O O' -> World h O -> World h O'.
  Proof.
    intros h O O' P (F & T & D). split; [eapply Permutation_Forall; eauto|]. split; [|exact D]. intros q. rewrite <- T. symmetry. now apply total_perm.
  Qed.
  Lemma World_ok : forall h O o, World h O -> In o O -> ok h o.
  Proof. intros h O o (F & _) I. rewrite Forall_forall in F. auto. Qed.

  (** * Objects *)
  Lemma load_ok : forall h p w d, nth_error h p = Some (mk_cell w d true) -> load h p = Ok (mk_cell w d true).
  Proof. intros h p w d E. unfold load. now rewrite E. Qed.

  Lemma nth_app_new : forall h c, nth_error (h ++ [c]) (length h) = Some (c : cell).
  Proof. intros h c. rewrite nth_error_app2 by lia. now rewrite Nat.sub_diag. Qed.
  Lemma nth_app_old : forall h c q, q < length h -> nth_error (h ++ [c]) q = nth_error (h : heap) q.
  Proof. intros h c q H. now apply nth_error_app1. Qed.

  Lemma alloc_sess : forall h O p, World h O -> World (h ++ [mk_cell (Session p []) [] true]) (OSess (length h) p [] :: O).
  Proof.
    intros h O p W. apply (more h); auto.
    - intros q H. now apply nth_app_old.
    - cbn. unfold sess_ok. apply nth_app_new.
    - intros q H. cbn. lia.
    - intros q H. unfold cnt. cbn [fp count_occ]. unfold alive. destruct (Nat.eq_dec (length h) q) as [<-|N].
      + now rewrite nth_app_new.
      + destruct (nth_error _ q) eqn:E; [|reflexivity]. assert (Q : q < length (h ++ [mk_cell (Session p []) [] true])) by (apply nth_error_Some; congruence).
        rewrite app_length in Q. cbn in Q. lia.
    - intros q c H E. assert (Q : q < length (h ++ [mk_cell (Session p []) [] true])) by (apply nth_error_Some; congruence).
      rewrite app_length in Q. cbn in Q. assert (q = length h) by lia. subst q. rewrite nth_app_new in E. now injection E as <-.
  Qed.
  Lemma alloc_cell : forall h O d, World h O -> World (h ++ [mk_cell Peer d true]) (OCell (length h) :: O).
  Proof.
    intros h O d W. apply (more h); auto.
    - intros q H. now apply nth_app_old.
    - cbn. exists d. apply nth_app_new.
    - intros q H. cbn. lia.
    - intros q H. unfold cnt. cbn [fp count_occ]. unfold alive. destruct (Nat.eq_dec (length h) q) as [<-|N].
      + now rewrite nth_app_new.
      + destruct (nth_error _ q) eqn:E; [|reflexivity]. assert (Q : q < length (h ++ [mk_cell Peer d true])) by (apply nth_error_Some; congruence).
        rewrite app_length in Q. cbn in Q. lia.
    - intros q c H E. assert (Q : q < length (h ++ [mk_cell Peer d true])) by (apply nth_error_Some; congruence).
      rewrite app_length in Q. cbn in Q. assert (q = length h) by lia. subst q. rewrite nth_app_new in E. now injection E as <-.
  Qed.

  Lemma free_sess : forall h O s p parts, World h (OSess s p parts :: O) -> exists h', free h s = Ok h' /\ World h' O.
  Proof.
    intros h O s p parts W. pose proof (World_ok _ _ _ W (or_introl eq_refl)) as K. cbn in K. unfold sess_ok in K.
    unfold free. rewrite (load_ok _ _ _ _ K). cbn. eexists. split; [reflexivity|].
    eapply drop; [exact W| |].
    - intros q H. apply upd_other. intros ->. apply H. now left.
    - intros q [<-|[]]. eexists. split; [eapply upd_same; eauto|]. split; [reflexivity|]. intros _. constructor.
  Qed.
  Lemma free_cell : forall h O c, World h (OCell c :: O) -> exists h', free h c = Ok h' /\ World h' O.
  Proof.
    intros h O c W. pose proof (World_ok _ _ _ W (or_introl eq_refl)) as [d K].
    unfold free. rewrite (load_ok _ _ _ _ K). cbn. eexists. split; [reflexivity|].
    eapply drop; [exact W| |].
    - intros q H. apply upd_other. intros ->. apply H. now left.
    - intros q [<-|[]]. eexists. split; [eapply upd_same; eauto|]. split; [reflexivity|]. cbn. congruence.
  Qed.
  Lemma write_cell : forall h O c d, World h (OCell c :: O) -> exists c0, load h c = Ok c0 /\ c_what c0 = Peer /\ World (upd h c (mk_cell (c_what c0) d true)) (OCell c :: O).
  Proof.
    intros h O c d W. pose proof (World_ok _ _ _ W (or_introl eq_refl)) as [d0 K].
    rewrite (load_ok _ _ _ _ K). eexists. split; [reflexivity|]. split; [reflexivity|]. cbn [c_what].
    eapply keep; [exact W| | | |].
    - intros q H. apply upd_other. intros ->. apply H. now left.
    - cbn. exists d. eapply upd_same; eauto.
    - reflexivity.
    - intros q [<-|[]]. unfold alive. erewrite upd_same; eauto.
  Qed.

  Lemma clean_zeros : forall w d l, clean (mk_cell w (zeros d) l).
  Proof. intros w d l. unfold clean, zeros. cbn. induction d; cbn; constructor; auto. Qed.

  Lemma free_simple : forall h O i q d, World h (OPart (i, Some q) :: O) -> holds_part h (i, Some q) = [q] -> nth_error h q = Some (mk_cell (State i None) d true) ->
    exists h', (do h <- wipe h q; free h q) = Ok h' /\ World h' O.
  Proof.
    intros h O i q d W E K. unfold wipe. rewrite (load_ok _ _ _ _ K). cbn. unfold free. erewrite (load_ok (upd h q _)) by (eapply upd_same; eauto).
    cbn. eexists. split; [reflexivity|]. eapply drop; [exact W| |]; cbn [fp]; rewrite E.
    - intros x H. assert (x <> q) by (intros ->; apply H; now left). now rewrite !upd_other.
    - intros x [<-|[]]. eexists. split; [eapply upd_same; eapply upd_same; eauto|]. split; [reflexivity|]. intros _. apply clean_zeros.
  Qed.

  Lemma impl_free_ok : forall h O i st, World h (OPart (i, st) :: O) -> exists h', impl_free i st h = Ok h' /\ World h' O.
  Proof.
    intros h O i st W. pose proof (World_ok _ _ _ W (or_introl eq_refl)) as [HU K]. cbn [fst snd] in *.
    destruct st as [q|].
    2:{ subst i. exists h. split; [reflexivity|]. eapply drop; [exact W|reflexivity|]. intros q []. }
    destruct K as [N K].
    assert (E0 : forall d, nth_error h q = Some (mk_cell (State i None) d true) -> holds_part h (i, Some q) = [q]).
    { intros d E. unfold holds_part. cbn [snd]. now rewrite E. }
    destruct i; try congruence; try (destruct K as [d K]; unfold impl_free; rewrite (load_ok _ _ _ _ K); cbn [bind c_what impl_eqb];
      exact (free_simple h O _ q d W (E0 d K) K)).
    destruct K as (e & d & K1 & K2).
    assert (QE : q <> e) by (intros ->; congruence).
    unfold impl_free. rewrite (load_ok _ _ _ _ K1). cbn [bind c_what impl_eqb].
    unfold wipe. rewrite (load_ok _ _ _ _ K2). cbn [bind].
    assert (P1 : nth_error (upd h e (mk_cell Evp (zeros d) true)) e = Some (mk_cell Evp (zeros d) true)) by (eapply upd_same; eauto).
    unfold free at 1. cbn [c_what c_data]. rewrite (load_ok _ _ _ _ P1). cbn [bind c_what c_data].
    set (h2 := upd (upd h e (mk_cell Evp (zeros d) true)) e (mk_cell Evp (zeros d) false)).
    assert (P2 : nth_error h2 q = Some (mk_cell (State AesOpenssl (Some e)) [] true)) by (unfold h2; now rewrite !upd_other).
    unfold free. rewrite (load_ok _ _ _ _ P2). cbn [bind c_what c_data]. eexists. split; [reflexivity|].
    assert (E1 : fp h (OPart (AesOpenssl, Some q)) = [q; e]) by (cbn; unfold holds_part; cbn [snd]; now rewrite K1).
    eapply drop; [exact W| |]; rewrite E1.
    - intros x H. assert (x <> q) by (intros ->; apply H; now left). assert (x <> e) by (intros ->; apply H; right; now left).
      unfold h2. now rewrite !upd_other.
    - intros x [<-|[<-|[]]].
      + eexists. split; [eapply upd_same; eauto|]. split; [reflexivity|]. intros _. constructor.
      + eexists. split; [rewrite upd_other by congruence; unfold h2; eapply upd_same; eauto|]. split; [reflexivity|]. intros _. apply clean_zeros.
  Qed.
  Lemma impl_use_ok : forall h O i st, World h O -> In (OPart (i, st)) O -> impl_use i st h = Ok tt.
  Proof.
    intros h O i st W I. pose proof (World_ok _ _ _ W I) as [HU K]. cbn [fst snd] in *. destruct st as [q|]; [|subst i; reflexivity].
    destruct K as [N K]. destruct i; try congruence; try (destruct K as [d K]; unfold impl_use; rewrite (load_ok _ _ _ _ K); reflexivity).
    destruct K as (e & d & K1 & K2). unfold impl_use. rewrite (load_ok _ _ _ _ K1). cbn. rewrite (load_ok _ _ _ _ K2). reflexivity.
  Qed.

  Lemma new_part : forall h O i key off, World h O -> U i -> off + key_bytes i <= length key ->
    exists h' st, impl_init i key off h = Ok (h', st) /\ World h' (OPart (i, st) :: O) /\ (forall q, q < length h -> nth_error h' q = nth_error h q) /\
      key_in h' (i, st) = firstn (key_bytes i) (skipn off key).
  Proof.
    intros h O i key off W HU L.
    assert (R : read key off (key_bytes i) = Ok (firstn (key_bytes i) (skipn off key))).
    { unfold read. destruct (Nat.leb_spec (off + key_bytes i) (length key)); [reflexivity|lia]. }
    assert (Simple : i <> NullMemcpy -> i <> AesOpenssl -> forall k, let h' := h ++ [mk_cell (State i None) k true] in
      World h' (OPart (i, Some (length h)) :: O) /\ (forall q, q < length h -> nth_error h' q = nth_error h q) /\ key_in h' (i, Some (length h)) = k).
    { intros N1 N2 k h'. assert (E1 : holds_part h' (i, Some (length h)) = [length h]).
      { unfold holds_part. cbn [snd]. unfold h'. now rewrite nth_app_new. }
      split; [|split].
      - apply (more h); auto.
        + intros q H. now apply nth_app_old.
        + cbn. split; [exact HU|]. cbn [fst snd]. split; [exact N1|].
          destruct i; try congruence; exists k; apply nth_app_new.
        + intros q H. cbn [fp]. rewrite E1. cbn. lia.
        + intros q H. unfold cnt. cbn [fp]. rewrite E1. cbn [count_occ]. unfold alive. destruct (Nat.eq_dec (length h) q) as [<-|N].
          * unfold h'. now rewrite nth_app_new.
          * destruct (nth_error h' q) eqn:E; [|reflexivity]. assert (Q : q < length h') by (apply nth_error_Some; congruence).
            unfold h' in Q. rewrite app_length in Q. cbn in Q. lia.
        + intros q c H E. assert (Q : q < length h') by (apply nth_error_Some; congruence). unfold h' in Q. rewrite app_length in Q. cbn in Q.
          assert (q = length h) by lia. subst q. unfold h' in E. rewrite nth_app_new in E. now injection E as <-.
      - intros q H. now apply nth_app_old.
      - unfold key_in. rewrite E1. cbn. unfold data_of, h'. rewrite nth_app_new. cbn. apply app_nil_r. }
    destruct i; unfold impl_init; rewrite ?R; cbn [bind alloc];
      try (eexists; eexists; split; [reflexivity|]; apply Simple; congruence).
    - (* AES *)
      set (k := firstn _ _). set (h1 := h ++ [mk_cell Evp k true]).
      assert (L1 : length h1 = S (length h)) by (unfold h1; rewrite app_length; cbn; lia).
      set (h' := h1 ++ [mk_cell (State AesOpenssl (Some (length h))) [] true]).
      assert (Q1 : nth_error h' (length h1) = Some (mk_cell (State AesOpenssl (Some (length h))) [] true)) by apply nth_app_new.
      assert (Q2 : nth_error h' (length h) = Some (mk_cell Evp k true)).
      { unfold h'. rewrite nth_app_old by lia. apply nth_app_new. }
      assert (E1 : holds_part h' (AesOpenssl, Some (length h1)) = [length h1; length h]).
      { unfold holds_part. cbn [snd]. now rewrite Q1. }
      assert (L2 : length h' = S (S (length h))) by (unfold h'; rewrite app_length; cbn; lia).
      assert (O1 : forall q, q < length h -> nth_error h' q = nth_error h q).
      { intros q H. unfold h'. rewrite nth_app_old by lia. now apply nth_app_old. }
      exists h', (Some (length h1)). split; [reflexivity|]. split; [|split; [exact O1|]].
      + apply (more h); auto.
        * cbn. split; [exact HU|]. cbn [fst snd]. split; [congruence|]. exists (length h), k. auto.
        * intros q H. cbn [fp]. rewrite E1. cbn. lia.
        * intros q H. unfold cnt. cbn [fp]. rewrite E1. cbn [count_occ]. unfold alive.
          destruct (Nat.eq_dec (length h1) q) as [<-|N1]; [rewrite Q1; destruct (Nat.eq_dec (length h) (length h1)); [lia|reflexivity]|].
          destruct (Nat.eq_dec (length h) q) as [<-|N2]; [now rewrite Q2|].
          destruct (nth_error h' q) eqn:E; [|reflexivity]. assert (q < length h') by (apply nth_error_Some; congruence). lia.
        * intros q c H E. assert (q < length h') by (apply nth_error_Some; congruence).
          assert (D : q = length h1 \/ q = length h) by lia. destruct D as [-> | ->]; [rewrite Q1 in E|rewrite Q2 in E]; now injection E as <-.
      + unfold key_in. rewrite E1. cbn [flat_map]. unfold data_of. rewrite Q1, Q2. cbn. apply app_nil_r.
    - (* null *)
      eexists. eexists. split; [reflexivity|]. split; [|split; [reflexivity|reflexivity]].
      apply (more h); auto.
      + split; [exact HU|reflexivity].
      + intros q H. unfold cnt. cbn. unfold alive. apply nth_error_None in H. now rewrite H.
      + intros q c H E. apply nth_error_None in H. congruence.
  Qed.

  (** * Sessions *)
  Lemma key_in_same : forall h h' x, (forall q, In q (holds_part h x) -> nth_error h' q = nth_error h q) -> part_ok h x -> key_in h' x = key_in h x.
  Proof.
    intros h h' x H K. destruct (part_dep h h' x H K) as [_ E]. unfold key_in. rewrite E. revert H. generalize (holds_part h x).
    induction l as [|q l IH]; intros H; [reflexivity|]. cbn. rewrite IH by (intros y Y; apply H; now right). f_equal. unfold data_of. now rewrite H by (now left).
  Qed.

  Lemma add_part_ok : forall h O s p parts i key off, World h (OSess s p parts :: map OPart parts ++ O) -> U i -> off + key_bytes i <= length key ->
    exists h' st, add_part s (Some i) key off h = Ok h' /\
      World h' (OSess s p (parts ++ [(i, st)]) :: map OPart (parts ++ [(i, st)]) ++ O) /\
      map (key_in h') (parts ++ [(i, st)]) = map (key_in h) parts ++ [firstn (key_bytes i) (skipn off key)].
  Proof.
    intros h O s p parts i key off W HU L.
    destruct (new_part h _ i key off W HU L) as (h1 & st & E & W1 & Same & Key).
    pose proof (World_ok _ _ _ W (or_introl eq_refl)) as K. cbn in K.
    assert (Hs : s < length h). { apply nth_error_Some. unfold sess_ok in K. congruence. }
    assert (K1 : nth_error h1 s = Some (mk_cell (Session p parts) [] true)) by (rewrite Same; auto).
    unfold add_part. rewrite E. cbn [bind]. rewrite (load_ok _ _ _ _ K1). cbn [bind c_what c_data].
    set (h' := upd h1 s (mk_cell (Session p (parts ++ [(i, st)])) [] true)).
    exists h', st. split; [reflexivity|].
    assert (W2 : World h1 (OSess s p parts :: OPart (i, st) :: map OPart parts ++ O)) by (eapply World_perm; [|exact W1]; apply perm_swap).
    assert (W3 : World h' (OSess s p (parts ++ [(i, st)]) :: OPart (i, st) :: map OPart parts ++ O)).
    { eapply keep; [exact W2| | | |].
      - intros q H. apply upd_other. intros ->. apply H. now left.
      - cbn. unfold sess_ok, h'. eapply upd_same; eauto.
      - reflexivity.
      - intros q [<-|[]]. unfold alive, h'. erewrite upd_same; eauto. }
    assert (NS : forall x q, In x ((i, st) :: parts) -> In q (holds_part h1 x) -> nth_error h' q = nth_error h1 q).
    { intros x q X Q. apply upd_other. intros ->.
      assert (Z : total h1 (OPart (i, st) :: map OPart parts ++ O) s = 0) by (apply (apart _ _ _ _ W2); now left).
      assert (1 <= total h1 (OPart (i, st) :: map OPart parts ++ O) s); [|lia].
      apply (total_in h1 _ s (OPart x)); [|exact Q]. destruct X as [<-|X]; [now left|right; apply in_or_app; left; now apply in_map]. }
    assert (PK : forall x, In x ((i, st) :: parts) -> part_ok h1 x).
    { intros x X. apply (World_ok _ _ (OPart x) W2). right. destruct X as [<-|X]; [now left|right; apply in_or_app; left; now apply in_map]. }
    split.
    - eapply World_perm; [|exact W3]. rewrite map_app. cbn [map]. rewrite <- app_assoc. apply perm_skip. cbn [app]. apply Permutation_middle.
    - rewrite map_app. cbn [map]. f_equal.
      + apply map_ext_in. intros x X. rewrite (key_in_same h1 h' x); [|intros q; apply NS; now right|apply PK; now right].
        assert (PX : part_ok h x) by (apply (World_ok _ _ (OPart x) W); right; apply in_or_app; left; now apply in_map).
        apply key_in_same; [|exact PX]. intros q Q. apply Same. apply (bounded h _ (OPart x) q W); [|exact Q]. right. apply in_or_app. left. now apply in_map.
      + f_equal. rewrite (key_in_same h1 h'); [exact Key| |]; [intros q; apply NS; now left|apply PK; now left].
  Qed.

  Lemma session_ok : forall h O s p parts, World h O -> In (OSess s p parts) O -> session h p s = Ok parts.
  Proof.
    intros h O s p parts W I. pose proof (World_ok _ _ _ W I) as K. cbn in K. unfold session. rewrite (load_ok _ _ _ _ K). cbn. destruct p; reflexivity.
  Qed.
  Lemma part_found : forall h O s p parts k x, World h O -> In (OSess s p parts) O -> nth_error parts k = Some x -> part h s p k = Ok x.
  Proof. intros h O s p parts k x W I E. unfold part. rewrite (session_ok h O s p parts W I). cbn. now rewrite E. Qed.

  (** freeing the parts one after another *)
  Lemma free_parts_ok : forall n s p done todo h O, length todo = n -> World h (OSess s p (done ++ todo) :: map OPart todo ++ O) ->
    exists h', free_parts s p (length done) n h = Ok h' /\ World h' (OSess s p (done ++ todo) :: O).
  Proof.
    induction n as [|n IH]; intros s p done todo h O L W.
    - destruct todo; [|discriminate]. exists h. split; [reflexivity|exact W].
    - destruct todo as [|[i st] todo]; [discriminate|]. cbn [free_parts].
      unfold free_part. rewrite (part_found h _ s p _ (length done) (i, st) W (or_introl eq_refl)).
      2:{ rewrite nth_error_app2 by lia. now rewrite Nat.sub_diag. }
      cbn [bind fst snd].
      assert (W1 : World h (OPart (i, st) :: OSess s p (done ++ (i, st) :: todo) :: map OPart todo ++ O)) by (eapply World_perm; [|exact W]; apply perm_swap).
      destruct (impl_free_ok _ _ _ _ W1) as (h1 & E & W2). rewrite E. cbn [bind].
      destruct (IH s p (done ++ [(i, st)]) todo h1 O) as (h2 & E2 & W3); [cbn in L; lia|now rewrite <- app_assoc|].
      rewrite app_length in E2. cbn in E2. replace (length done + 1) with (S (length done)) in E2 by lia. exists h2. split; [exact E2|].
      now rewrite <- app_assoc in W3.
  Qed.
  Lemma use_parts_ok : forall n s p k h O parts, World h O -> In (OSess s p parts) O -> (forall x, In x parts -> In (OPart x) O) -> k + n <= length parts ->
    use_parts s p k n h = Ok tt.
  Proof.
    induction n as [|n IH]; intros s p k h O parts W I J L; [reflexivity|]. cbn [use_parts].
    destruct (nth_error parts k) as [[i st]|] eqn:E; [|apply nth_error_None in E; lia].
    unfold use_part. rewrite (part_found h O s p parts k (i, st) W I E). cbn [bind fst snd].
    rewrite (impl_use_ok h O i st W (J _ (nth_error_In _ _ E))). cbn [bind]. apply (IH s p (S k) h O parts); auto. lia.
  Qed.

  (** a slot with a session, taken apart and put together *)
  Lemma slot_open : forall h O k s, World h (OSlot (mk_slot (Some k) (Some s)) :: O) ->
    exists p m parts, nth_error ms k = Some (p, m) /\ length parts = fields p /\ World h (OSess s p parts :: map OPart parts ++ O).
  Proof.
    intros h O k s W. pose proof (World_ok _ _ _ W (or_introl eq_refl)) as (p & m & parts & K1 & K2 & K3 & K4).
    exists p, m, parts. split; [exact K1|]. split; [exact K3|]. destruct W as (F & T & D). apply Forall_cons_iff in F. destruct F as [_ F].
    split; [|split; [|exact D]].
    - constructor; [exact K2|]. apply Forall_app. split; [|exact F]. apply Forall_map. exact K4.
    - intros q. rewrite <- T. cbn [total]. unfold cnt at 1. unfold cnt at 1. cbn [fp holds_slot sl_state]. unfold holds_slot. cbn [sl_state]. unfold holds_session. rewrite K2.
      change (s :: flat_map (holds_part h) parts) with ([s] ++ flat_map (holds_part h) parts). rewrite count_occ_app.
      assert (X : total h (map OPart parts ++ O) q = count_occ Nat.eq_dec (flat_map (holds_part h) parts) q + total h O q).
      { clear. induction parts as [|x l IH]; cbn; [lia|]. rewrite IH, count_occ_app. unfold cnt. cbn [fp]. lia. }
      rewrite X. lia.
  Qed.
  Lemma slot_close : forall h O k s p m parts, nth_error ms k = Some (p, m) -> length parts = fields p -> World h (OSess s p parts :: map OPart parts ++ O) ->
    World h (OSlot (mk_slot (Some k) (Some s)) :: O).
  Proof.
    intros h O k s p m parts K1 K3 W. pose proof (World_ok _ _ _ W (or_introl eq_refl)) as K2. cbn in K2.
    destruct W as (F & T & D). apply Forall_cons_iff in F. destruct F as [_ F]. apply Forall_app in F. destruct F as [F1 F2].
    split; [|split; [|exact D]].
    - constructor; [|exact F2]. exists p, m, parts. repeat split; auto. rewrite Forall_map in F1. exact F1.
    - intros q. rewrite <- T. cbn [total]. unfold cnt at 1. unfold cnt at 1. cbn [fp]. unfold holds_slot. cbn [sl_state]. unfold holds_session. rewrite K2.
      change (s :: flat_map (holds_part h) parts) with ([s] ++ flat_map (holds_part h) parts). rewrite count_occ_app.
      assert (X : total h (map OPart parts ++ O) q = count_occ Nat.eq_dec (flat_map (holds_part h) parts) q + total h O q).
      { clear. induction parts as [|x l IH]; cbn; [lia|]. rewrite IH, count_occ_app. unfold cnt. cbn [fp]. lia. }
      rewrite X. lia.
  Qed.
  Lemma slot_none : forall h O k, World h (OSlot (mk_slot k None) :: O) -> World h O.
  Proof.
    intros h O k W. eapply drop; [exact W|reflexivity|]. intros q [].
  Qed.
  Lemma none_slot : forall h O, World h O -> World h (OSlot no_slot :: O).
  Proof.
    intros h O (F & T & D). split; [constructor; [exact I|exact F]|]. split; [|exact D]. intros q. rewrite <- T. reflexivity.
  Qed.
  Lemma none_slot' : forall h O k, k < length ms -> World h O -> World h (OSlot (mk_slot (Some k) None) :: O).
  Proof.
    intros h O k L (F & T & D). split; [constructor; [exact L|exact F]|]. split; [|exact D]. intros q. rewrite <- T. reflexivity.
  Qed.
End world.
