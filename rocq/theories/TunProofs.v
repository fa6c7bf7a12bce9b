From Coq Require Import Permutation.
From Verif Require Import Base BufferModel BufferProofs SizeModel TunModel TunSpec.

Local Opaque text.
Definition ok (v : verdict) (f : list (N * bool)) (b : list nat) : Prop :=
  match v with
  | Wrong => False
  | Impossible => True
  | Fine w => Permutation (w_fds w) f /\ Permutation (w_blocks w) b
  end.

Lemma take_in {A} dec (x : A) l : In x l -> exists r, take dec x l = Some r /\ Permutation l (x :: r).
Proof.
  induction l as [|y l IH]; cbn; [tauto|]. intros [Hy | Hin].
  - subst y. destruct (dec x x) as [_|n]; [|congruence]. exists l. split; [reflexivity|]. apply Permutation_refl.
  - destruct (dec x y) as [e|n].
    + subst y. exists l. split; [reflexivity|]. apply Permutation_refl.
    + destruct (IH Hin) as (r & Hr & HP). rewrite Hr. exists (y :: r). split; [reflexivity|].
      eapply Permutation_trans; [apply perm_skip, HP | apply perm_swap].
Qed.
Lemma take_perm {A} dec (x : A) l l' : Permutation l (x :: l') -> exists r, take dec x l = Some r /\ Permutation r l'.
Proof.
  intro HP. destruct (take_in dec x l) as (r & Hr & HP2).
  - apply (Permutation_in _ (Permutation_sym HP)). now left.
  - exists r. split; [exact Hr|]. apply (Permutation_cons_inv (a := x)).
    eapply Permutation_trans; [apply Permutation_sym, HP2 | exact HP].
Qed.
Lemma isopen_perm fd w f b0 : Permutation (w_fds w) f -> In (fd, b0) f -> isopen fd w = true.
Proof.
  intros HP Hin. unfold isopen. apply existsb_exists. exists (fd, b0). split.
  - now apply (Permutation_in _ (Permutation_sym HP)).
  - apply N.eqb_refl.
Qed.

Lemma ok_open v p fd f b : ok v f b -> ok (follow v (Open p (Some fd))) ((fd, false) :: f) b.
Proof.
  destruct v as [| |w]; cbn; try tauto. intros [Hf Hb]. destruct (isopen fd w); cbn; [tauto|].
  split; [now apply perm_skip | exact Hb].
Qed.
Lemma ok_change x l v f b c :
  (forall w, follow (Fine w) c = change x l w) -> (follow Impossible c = Impossible) ->
  ok v (x :: f) b -> ok (follow v c) (l ++ f) b.
Proof.
  intros Hc Hi. destruct v as [| |w]; [cbn; tauto | rewrite Hi; cbn; tauto |]. intros [Hf Hb].
  rewrite Hc. unfold change. destruct (take_perm fd_dec _ _ _ Hf) as (r & Hr & HP). rewrite Hr. cbn.
  split; [now apply Permutation_app_head | exact Hb].
Qed.
Lemma ok_register v fd f b : ok v ((fd, false) :: f) b -> ok (follow v (Register fd)) ((fd, true) :: f) b.
Proof. now apply (ok_change (fd, false) [(fd, true)]). Qed.
Lemma ok_unregister v fd f b : ok v ((fd, true) :: f) b -> ok (follow v (Unregister fd)) ((fd, false) :: f) b.
Proof. now apply (ok_change (fd, true) [(fd, false)]). Qed.
Lemma ok_close v fd r f b : ok v ((fd, false) :: f) b -> ok (follow v (Close fd r)) f b.
Proof. now apply (ok_change (fd, false) []). Qed.
Lemma ok_alloc v n f b : ok v f b -> ok (follow v (Alloc n)) f (n :: b).
Proof.
  destruct v as [| |w]; cbn; try tauto. intros [Hf Hb]. destruct (inuse n w); cbn; [tauto|].
  split; [exact Hf | now apply perm_skip].
Qed.
Lemma ok_free v n f b : ok v f (n :: b) -> ok (follow v (Free n)) f b.
Proof.
  destruct v as [| |w]; cbn; try tauto. intros [Hf Hb].
  destruct (take_perm Nat.eq_dec _ _ _ Hb) as (r & Hr & HP). rewrite Hr. cbn. tauto.
Qed.
(** calls that use a descriptor, and others *)
Definition uses (c : call) : option (option N) :=
  match c with
  | SetIff fd _ _ _ _ | GetInfo fd _ | SetInfo fd _ _ | SetHead fd _ | NameOf fd _ => Some (Some fd)
  | Open _ None | GetMtu _ _ | SetMtu _ _ _ | NameToIndex _ _ | Destroy _ _ => Some None
  | _ => None
  end.
Lemma ok_none v c f b : uses c = Some None -> ok v f b -> ok (follow v c) f b.
Proof.
  destruct v as [| |w]; cbn; try tauto. intros Hu Hv.
  destruct c as [? [?|]| | | | | | | | | | | | | |]; cbn in *; try discriminate Hu; exact Hv.
Qed.
Lemma ok_uses v c fd f b : uses c = Some (Some fd) -> ok v ((fd, false) :: f) b -> ok (follow v c) ((fd, false) :: f) b.
Proof.
  destruct v as [| |w]; cbn [ok]; intros Hu Hv.
  - destruct Hv.
  - destruct c; exact I.
  - destruct Hv as [Hf Hb]. pose proof (isopen_perm fd w _ false Hf (or_introl eq_refl)) as Ho.
    destruct c as [? [?|]| | | | | | | | | | | | | |]; cbn in Hu; try discriminate Hu; injection Hu as ->; cbn [follow];
      rewrite Ho; exact (conj Hf Hb).
Qed.
Lemma ok_perm v f b f' b' : Permutation f f' -> Permutation b b' -> ok v f b -> ok v f' b'.
Proof.
  destruct v as [| |w]; cbn; try tauto. intros H1 H2 [Hf Hb]. split; eapply Permutation_trans; eassumption.
Qed.

Ltac follow_one :=
  match goal with
  | |- ok (follow _ (Open _ (Some _))) _ _ => apply ok_open
  | |- ok (follow _ (Register _)) _ _ => apply ok_register
  | |- ok (follow _ (Unregister _)) _ _ => apply ok_unregister
  | |- ok (follow _ (Close _ _)) _ _ => apply ok_close
  | |- ok (follow _ (Alloc _)) _ _ => apply ok_alloc
  | |- ok (follow _ (Free _)) _ _ => apply ok_free
  | |- ok (follow _ _) _ _ => first [apply ok_none; [reflexivity|] | eapply ok_uses; [reflexivity|]]
  end.

(** ** Carrying out the operations *)
Ltac run_in H :=
  cbv beta iota zeta delta [iface_open open_iface open_linux open_freebsd open_other iface_close set_mtu set_info cleanup_iface
    dup_name sys_open free_name exit_errno mbind ret log ask alloc bind fst snd t_tick t_log
    set_fd set_name set_cleanup i_fd i_name i_cleanup i_block i_mtu] in H.
Ltac cases_in H :=
  repeat (match type of H with
  | context [match ?x with _ => _ end] =>
      match x with context [match _ with _ => _ end] => fail 1 | _ => destruct x eqn:? end
  end; cbv beta iota zeta delta [bind fst snd t_tick t_log i_fd i_name i_cleanup i_block i_mtu] in H).

Lemma open_accounts E os m name mtu s r s' f b :
  iface_open E os m name mtu s = Ok (r, s') -> ok (replay (t_log s)) f b ->
  ok (replay (t_log s')) (flat_map its_fd (match r with Some i => [i] | None => [] end) ++ f)
     (flat_map its_blocks (match r with Some i => [i] | None => [] end) ++ b).
Proof.
  intros H H0. destruct s as [tick l]. cbn [t_log] in H0. unfold replay in *.
  destruct os; run_in H; cases_in H; try discriminate H; injection H as <- <-; cbn [t_log];
    rewrite ?fold_left_app; cbn [fold_left flat_map app its_fd its_blocks i_fd i_name i_block];
    try match goal with |- ok _ _ (?x :: ?y :: ?z) => eapply (ok_perm _ _ (y :: x :: z)); [apply Permutation_refl | apply perm_swap |] end;
    repeat follow_one; exact H0.
Qed.

Lemma close_accounts E os i s s' f b :
  iface_close E os i s = Ok (tt, s') -> ok (replay (t_log s)) (its_fd i ++ f) (its_blocks i ++ b) -> ok (replay (t_log s')) f b.
Proof.
  intros H H0. destruct s as [tick l]. destruct i as [ib [fd|] [[nb n]|] mtu cl]; cbn [t_log its_fd its_blocks app i_fd i_name i_block] in H0; unfold replay in *;
    destruct os; run_in H; cases_in H; try discriminate H; injection H as <-; cbn [t_log];
    rewrite ?fold_left_app; cbn [fold_left];
    repeat follow_one; try exact H0;
    (eapply ok_perm; [apply Permutation_refl | apply perm_swap | exact H0]).
Qed.

Definition sound (os : platform) (i : iface) : Prop :=
  i_fd i <> None /\ (os = FreeBSD -> i_name i <> None).
Lemma open_sound E os m name mtu s i s' : iface_open E os m name mtu s = Ok (Some i, s') -> sound os i.
Proof.
  intro H. destruct s as [tick l]. unfold sound.
  destruct os; run_in H; cases_in H; try discriminate H; injection H as <- <-; cbn [i_fd i_name]; split; congruence.
Qed.

Lemma run_accounts E os m held s : run E os m held s -> accounts (t_log s) held /\ Forall (sound os) held.
Proof.
  unfold accounts. induction 1 as [|held s name mtu r s' Hr [IH1 IH2] Ho|held1 i held2 s s' Hr [IH1 IH2] Hc].
  - cbn. split; [split; apply Permutation_refl | constructor].
  - split.
    + pose proof (open_accounts E os m name mtu s r s' _ _ Ho IH1) as Ha.
      destruct r as [i|]; cbn [flat_map] in *; rewrite ?app_nil_r in Ha; exact Ha.
    + destruct r as [i|]; [|exact IH2]. constructor; [|exact IH2]. now apply (open_sound E os m name mtu s i s').
  - split.
    + apply (close_accounts E os i s s' _ _ Hc). rewrite flat_map_app in IH1. cbn [flat_map] in IH1.
      rewrite (flat_map_app its_blocks) in IH1. cbn [flat_map] in IH1.
      eapply ok_perm; [| | exact IH1]; rewrite !flat_map_app; apply Permutation_app_swap_app.
    + apply Forall_app in IH2. destruct IH2 as [F1 F2]. inversion F2; subst. apply Forall_app. now split.
Qed.

Lemma open_outcome E os m name mtu s :
  iface_open E os m name mtu s <> Bug /\ iface_open E os m name mtu s <> UB.
Proof.
  destruct s as [tick l].
  assert (HH : forall x, iface_open E os m name mtu (mk_st tick l) = x -> x <> Bug /\ x <> UB).
  { intros x H. destruct os; run_in H; cases_in H; subst x; split; discriminate. }
  now apply HH.
Qed.
Lemma close_outcome E os i s : sound os i -> exists s', iface_close E os i s = Ok (tt, s').
Proof.
  destruct s as [tick l]. destruct i as [ib [fd|] [[nb n]|] mtu cl]; intros [Hf Hn]; cbn [i_fd i_name] in *; try congruence.
  - remember (iface_close E os {| i_block := ib; i_fd := Some fd; i_name := Some (nb, n); i_mtu := mtu; i_cleanup := cl |} (mk_st tick l)) as x eqn:H.
    destruct os; run_in H; cases_in H; subst x; eexists; reflexivity.
  - remember (iface_close E os {| i_block := ib; i_fd := Some fd; i_name := None; i_mtu := mtu; i_cleanup := cl |} (mk_st tick l)) as x eqn:H.
    destruct os; run_in H; cases_in H; subst x; try (eexists; reflexivity); exfalso; apply Hn; reflexivity.
Qed.

(** ** Configuration *)
Lemma prefix3_named m n : prefix3 m n = true <-> named_for m n.
Proof.
  unfold prefix3, named_for, type_name. destruct m; cbn [is_tun]; destruct (list_eq_dec _ _ _); split; congruence.
Qed.
Ltac in_list := solve [cbn [In device text negb is_tun];
  repeat match goal with |- _ \/ _ => first [left; reflexivity | right] end].
Ltac split_close L k :=
  match L with
  | Close ?f true :: ?r => k f (@nil call) r
  | ?c :: ?r => split_close r ltac:(fun f p q => k f constr:(c :: p) q)
  end.
Ltac not_in H := cbn [In] in H; repeat destruct H as [H|H]; first [discriminate H | destruct H].

Lemma firstn15_idem (r : bytes) : firstn 15 (firstn 15 r) = firstn 15 r.
Proof. rewrite firstn_firstn. reflexivity. Qed.

Lemma open_configured E os m name mtu s i s' :
  iface_open E os m name mtu s = Ok (Some i, s') ->
  exists fd nb n delta,
    t_log s' = t_log s ++ delta ++ [Register fd] /\
    i_fd i = Some fd /\ i_name i = Some (nb, n) /\ i_mtu i = mtu /\
    acceptable os m name /\
    In (Open (device os m name) (Some fd)) delta /\
    gives_name os m fd name n delta /\ gives_mtu os fd n mtu delta /\ gives_prefix os m fd delta /\
    (i_cleanup i = true <-> created os name delta) /\ (forall x, ~ destroyed x delta).
Proof.
  intro H. destruct s as [tick l].
  destruct os; run_in H; cases_in H; try discriminate H; injection H as <- <-; cbn [t_log i_fd i_name i_mtu i_cleanup];
    rewrite <- ?app_assoc; cbn [app];
    match goal with |- exists fd nb n delta, _ ++ ?L = _ ++ _ ++ [Register fd] /\ Some ?f = _ /\ Some (?x, ?y) = _ /\ _ =>
      let d := eval cbn [removelast] in (removelast L) in exists f, x, y, d end;
    (split; [reflexivity|]); (split; [reflexivity|]); (split; [reflexivity|]); (split; [reflexivity|]);
    repeat match goal with
    | [Hx : (_ || _)%bool = false |- _] => apply Bool.orb_false_iff in Hx; destruct Hx
    | [Hx : negb _ = false |- _] => apply Bool.negb_false_iff in Hx
    | [Hx : (_ && _)%bool = true |- _] => apply Bool.andb_true_iff in Hx; destruct Hx
    | [Hx : Nat.leb _ _ = false |- _] => apply Nat.leb_gt in Hx
    | [Hx : prefix3 _ _ = true |- _] => apply prefix3_named in Hx
    | [Hx : N.eqb _ _ = true |- _] => apply N.eqb_eq in Hx; subst
    end;
    try (destruct (e_ok E (S tick)) eqn:Hex);
    (split; [first [exact I | left; reflexivity | right; split; [lia | assumption] | split; [discriminate | assumption]] |]);
    (split; [destruct m; in_list|]);
    (split; [first [reflexivity | eexists; split; [|reflexivity]; destruct m; in_list] |]);
    (split; [unfold gives_mtu, ifname15, IFNAMSIZ; cbn [Nat.sub]; rewrite ?firstn15_idem;
             first [in_list | left; in_list | right; in_list] |]);
    (split; [destruct m; try exact I; cbn [gives_prefix]; first [in_list | discriminate] |]);
    (split; [unfold created; split;
             [intro Hc; first [discriminate Hc | split; [reflexivity | first [left; reflexivity | right; in_list]]]
             |intros [Hos Hc]; first [discriminate Hos | reflexivity | exfalso; destruct Hc as [Hc|Hc]; [discriminate Hc | not_in Hc]]] |]);
    intros z [w Hw]; not_in Hw.
Qed.

Lemma open_failed E os m name mtu s s' :
  iface_open E os m name mtu s = Ok (None, s') ->
  exists delta, t_log s' = t_log s ++ delta /\
    (forall fd, ~ In (Register fd) delta) /\
    ((exists n, destroyed n delta) <->
     created os name delta /\ exists p fd, In (Open p (Some fd)) delta /\ In (Close fd true) delta) /\
    (forall n, destroyed n delta -> exists p fd d1 d2,
       delta = d1 ++ Close fd true :: d2 /\ In (Open p (Some fd)) d1 /\ gives_name os m fd name n d1 /\ destroyed n d2).
Proof.
  intro H. destruct s as [tick l].
  destruct os; run_in H; cases_in H; try discriminate H; injection H as <-; cbn [t_log];
    rewrite <- ?app_assoc; cbn [app];
    match goal with |- exists delta, _ ++ ?L = _ ++ _ /\ _ => exists L end;
    (split; [reflexivity|]);
    (split; [intros z Hz; not_in Hz|]);
    repeat match goal with
    | [Hx : negb ?x = true |- _] => apply Bool.negb_true_iff in Hx; rewrite ?Hx
    | [Hx : negb ?x = false |- _] => apply Bool.negb_false_iff in Hx; rewrite ?Hx
    end;
    (split;
     [split;
      [intros (z & r & Hz); cbn [In] in Hz; repeat destruct Hz as [Hz|Hz]; try discriminate Hz; try (match type of Hz with False => destruct Hz end);
       (split; [split; [reflexivity | first [left; reflexivity | right; in_list]] | do 2 eexists; split; in_list])
      |intros [[Hos Hc] (p & fd & Hp & Hq)];
       first [discriminate Hos
             |exfalso; solve [cbn [In] in Hq; repeat destruct Hq as [Hq|Hq]; first [discriminate Hq | destruct Hq]]
             |exfalso; destruct Hc as [Hc|Hc]; [discriminate Hc | solve [cbn [In] in Hc; repeat destruct Hc as [Hc|Hc]; first [discriminate Hc | destruct Hc]]]
             |do 2 eexists; in_list]]
     |]);
    intros z (r & Hz); cbn [In] in Hz; repeat destruct Hz as [Hz|Hz]; try discriminate Hz; try (match type of Hz with False => destruct Hz end);
    injection Hz as <- <-;
    match goal with |- exists p fd d1 d2, ?L = _ /\ _ => split_close L ltac:(fun f a b => eexists _, f, a, b) end;
    (split; [reflexivity|]); (split; [in_list|]);
    (split; [unfold ifname15, IFNAMSIZ, gives_name; cbn [Nat.sub]; rewrite firstn15_idem; eexists; split; [|reflexivity]; in_list|]);
    eexists; in_list.
Qed.

Lemma close_calls E os i s s' :
  iface_close E os i s = Ok (tt, s') ->
  exists fd ok rest delta,
    i_fd i = Some fd /\ t_log s' = t_log s ++ [Unregister fd; Close fd ok] ++ delta ++ rest /\
    (forall c, In c rest -> exists b, c = Free b) /\
    match i_name i with
    | Some (_, n) =>
        if (ok && i_cleanup i && match os with FreeBSD => true | _ => false end)%bool
        then exists r, delta = [Destroy (firstn 15 n) r] else delta = []
    | None => delta = []
    end.
Proof.
  intro H. destruct s as [tick l]. destruct i as [ib [fd|] [[nb n]|] mtu cl]; cbn [i_fd i_name i_cleanup];
    destruct os; run_in H; cases_in H; try discriminate H; injection H as <-; cbn [t_log];
    rewrite <- ?app_assoc; cbn [app]; subst;
    match goal with
    | |- exists fd ok rest delta, _ /\ _ ++ [_; Close ?f ?o; Destroy ?d ?r; Free ?a; Free ?b] = _ /\ _ =>
        exists f, o, [Free a; Free b], [Destroy d r]
    | |- exists fd ok rest delta, _ /\ _ ++ [_; Close ?f ?o; Free ?a; Free ?b] = _ /\ _ => exists f, o, [Free a; Free b], []
    | |- exists fd ok rest delta, _ /\ _ ++ [_; Close ?f ?o; Free ?a] = _ /\ _ => exists f, o, [Free a], []
    end;
    (split; [reflexivity|]); (split; [reflexivity|]);
    (split; [cbn [In]; intros c Hc; repeat destruct Hc as [Hc|Hc]; try (destruct Hc; fail); subst c; eexists; reflexivity|]);
    cbn [andb]; rewrite ?Bool.andb_false_r; first [reflexivity | eexists; reflexivity].
Qed.
