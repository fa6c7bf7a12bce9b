(** Proofs about the status socket, part 3 *)
From Coq Require Import String.
From Verif Require Import Base BaseLemmas BufferModel NonceModel MethodModel HandshakeModel AddrModel AddrSpec FormatModel FormatSpec FormatProofs NameModel HexModel HexSpec HexProofs
  LogModel LogSpec LogProofs NodeModel NodeSteps NodeWf NodeInv NodeFun NodeSpec NodeProofs NodeProofs2 NodeProofs3 StatusModel StatusSpec StatusProofs StatusProofs2.
From Coq Require Import Lia ZifyBool ZifyNat ZifyN.
Local Open Scope Z_scope.

(** ** MAC addresses *)
Lemma mac_split : forall a, (a < 2 ^ 48)%N ->
  a = ((((((N.shiftr a 40 mod 256 * 256) + N.shiftr a 32 mod 256) * 256 + N.shiftr a 24 mod 256) * 256 + N.shiftr a 16 mod 256) * 256
        + N.shiftr a 8 mod 256) * 256 + N.shiftr a 0 mod 256)%N.
Proof.
  intros a H. rewrite !N.shiftr_div_pow2. change (2 ^ 0)%N with 1%N. rewrite N.div_1_r.
  change (2 ^ 8)%N with 256%N. change (2 ^ 16)%N with (256 * 256)%N. change (2 ^ 24)%N with (256 * 256 * 256)%N.
  change (2 ^ 32)%N with (256 * 256 * 256 * 256)%N. change (2 ^ 40)%N with (256 * 256 * 256 * 256 * 256)%N.
  rewrite <- !N.div_div by discriminate.
  pose proof (N.div_mod a 256 ltac:(discriminate)). set (a1 := (a / 256)%N) in *.
  pose proof (N.div_mod a1 256 ltac:(discriminate)). set (a2 := (a1 / 256)%N) in *.
  pose proof (N.div_mod a2 256 ltac:(discriminate)). set (a3 := (a2 / 256)%N) in *.
  pose proof (N.div_mod a3 256 ltac:(discriminate)). set (a4 := (a3 / 256)%N) in *.
  pose proof (N.div_mod a4 256 ltac:(discriminate)). set (a5 := (a4 / 256)%N) in *.
  assert (a5 < 256)%N by (assert (2 ^ 48 = 281474976710656)%N by reflexivity; lia).
  rewrite (N.mod_small a5 256) by assumption. lia.
Qed.
Lemma mac_spelled : forall a, (a < 2 ^ 48)%N -> spells_mac (mac_text (mac_bytes a)) a.
Proof.
  intros a H. exists (N.shiftr a 40 mod 256)%N, (N.shiftr a 32 mod 256)%N, (N.shiftr a 24 mod 256)%N, (N.shiftr a 16 mod 256)%N, (N.shiftr a 8 mod 256)%N, (N.shiftr a 0 mod 256)%N.
  split; [|split].
  - repeat split; apply N.mod_lt; discriminate.
  - exact (mac_split a H).
  - reflexivity.
Qed.
Lemma mac_string : forall a, FormatSpec.string (mac_text (mac_bytes a)) /\ (List.length (mac_text (mac_bytes a)) = 17)%nat.
Proof. intros a. split; [|reflexivity]. exact (mac_no _ 0 ltac:(lia)). Qed.

Lemma macs_shown : forall junk pid l acc, (forall e, In e l -> (e_addr e < 2 ^ 48)%N) ->
  exists r, dump_macs junk pid l acc = Ok (acc ++ r) /\
    Forall2 (fun v e => exists s, v = JStr s /\ spells_mac s (e_addr e)) r
      (filter (fun e => match e_peer e with Some q => N.eqb q pid | None => false end) l).
Proof.
  intros junk pid l. induction l as [|e l IH]; intros acc H; cbn [dump_macs filter].
  - exists []. rewrite app_nil_r. split; [reflexivity | constructor].
  - assert (Hl : forall e, In e l -> (e_addr e < 2 ^ 48)%N) by (intros x Hx; apply H; right; exact Hx).
    destruct (match e_peer e with Some q => N.eqb q pid | None => false end); cbn [negb]; [|exact (IH acc Hl)].
    destruct (mac_string (e_addr e)) as [S1 S2]. destruct (print_fits 18 junk (mac_text (mac_bytes (e_addr e))) S1) as (mem & E & C); [rewrite S2; lia|].
    rewrite E. cbn [bind fst]. rewrite C. cbn [bind]. destruct (IH (acc ++ [JStr (mac_text (mac_bytes (e_addr e)))]) Hl) as (r & Er & F).
    exists (JStr (mac_text (mac_bytes (e_addr e))) :: r). split; [rewrite Er, <- app_assoc; reflexivity|]. constructor; [|exact F].
    eexists. split; [reflexivity|]. apply mac_spelled. apply H. left. reflexivity.
Qed.

(** ** A peer *)
Lemma est_dec : forall p, (p_state p = Established /\ is_established p = true) \/ (p_state p <> Established /\ is_established p = false).
Proof. intros p. unfold is_established. destruct (p_state p); ((left; split; reflexivity) || (right; split; [discriminate | reflexivity])). Qed.

Lemma peer_shown : forall P x n p, reachable P n -> status_ok x n -> In p (n_peers n) ->
  exists j, dump_peer x n p = Ok j /\ shows_peer P x n p j.
Proof.
  intros P x n p R (Hlib & Hport & Hkey & Hmac) Hp. unfold dump_peer.
  pose (a := match p_addr p with Some a => x_saddr x a | None => AUnspec end).
  assert (Ha : port_ok a) by (unfold a; destruct (p_addr p); [apply Hport | exact Logic.I]).
  destruct (address_shown x (x_junk x (p_id p)) a Hlib Ha) as (mem & z & E & C). fold a. rewrite E. cbn [bind fst]. rewrite C. cbn [bind].
  assert (Es : spec_addr (x_lib x) false None a [] true = shown_address x p).
  { unfold a, shown_address. destruct (p_addr p); [reflexivity|]. cbn [spec_addr]. rewrite app_nil_r. reflexivity. }
  rewrite Es. clear E C Es mem z a Ha.
  assert (X : exists c, (if is_established p then
             let c := obj_add [] (str "established") (JInt (n_now n - x_since x (p_id p))) in
             do m <- current_method (n_now n) p;
             let c := obj_add c (str "method") (match m with Some s => JStr s | None => JNull end) in
             let c := obj_add c (str "statistics") (dump_stats (x_pstats x (p_id p))) in
             if x_tap x then
               do l <- dump_macs (x_junk x (p_id p)) (p_id p) (n_eth n) [];
               Ok (JObj (obj_add c (str "mac_addresses") (JArr l)))
             else Ok (JObj c)
           else Ok JNull) = Ok c /\ (p_state p <> Established -> c = JNull) /\ (p_state p = Established -> shows_connection P x n p c)).
  { destruct (est_dec p) as [[E1 E2]|[E1 E2]]; rewrite E2.
    2:{ exists JNull. split; [reflexivity|]. split; [reflexivity | intros; contradiction]. }
    destruct (current_sends P n p R Hp E1) as (m & Em & Hm). rewrite Em. cbv zeta. cbn [bind].
    destruct (macs_shown (x_junk x (p_id p)) (p_id p) (n_eth n) [] Hmac) as (r & Er & F). rewrite Er. cbn [bind app].
    destruct (x_tap x) eqn:Et; eexists; (split; [reflexivity|]); (split; [intros; contradiction|]); intros _; objs; unfold shows_connection; rewrite Et;
      (split; [is_object|]); (split; [is_field|]); (split; [exists m; split; [is_field | exact Hm]|]);
      (split; [eexists; split; [is_field | apply counters_shown]|]).
    - intros _. exists r. split; [is_field | exact F].
    - discriminate. }
  destruct X as (c & Ec & C1 & C2). cbv zeta in Ec |- *. rewrite Ec. cbn [bind]. clear Ec.
  destruct (x_iface x) eqn:Ei; eexists; (split; [reflexivity|]); objs; unfold shows_peer; rewrite Ei;
    (split; [is_object|]); (split; [is_field|]); (split; [is_field|]);
    (split; [first [discriminate | intros _; is_field]|]);
    (split; [intros Hn; rewrite (C1 Hn); is_field | intros He; exists c; split; [is_field | exact (C2 He)]]).
Qed.

(** ** All peers *)
Lemma enabled_iff : forall p, is_enabled p = true <-> enabled p.
Proof. intros p. unfold is_enabled, enabled. destruct (p_conf p); split; intros H; try discriminate; auto; destruct H; discriminate. Qed.

Lemma key_text : forall k, List.length k = 32%nat -> wf_bytes k -> exists s, describe_peer 65 k = Ok s /\ spells s k /\ forall c, In c s -> ~ is_capital c.
Proof.
  intros k Hl Hw. destruct (describe_ok 65 k) as (s & H1 & H2 & H3); [discriminate | exact Hl | exact Hw|]. exists s. split; [|split; assumption].
  rewrite H3. f_equal. apply firstn_all2. rewrite (spells_length _ _ H1), Hl. lia.
Qed.

Lemma peers_shown : forall P x n l acc, reachable P n -> status_ok x n -> (forall p, In p l -> In p (n_peers n)) ->
  NoDup (map p_key l) -> NoDup (map fst acc) -> (forall k v p, In (k, v) acc -> In p l -> ~ spells k (p_key p)) ->
  exists r, dump_peers x n l acc = Ok (acc ++ r) /\ NoDup (map fst (acc ++ r)) /\
    (forall k v, In (k, v) r -> exists p, In p l /\ enabled p /\ spells k (p_key p) /\ shows_peer P x n p v) /\
    (forall p, In p l -> enabled p -> exists k v, In (k, v) r /\ spells k (p_key p) /\ (forall c, In c k -> ~ is_capital c) /\ shows_peer P x n p v).
Proof.
  intros P x n l. induction l as [|p l IH]; intros acc R Hok Hin Hk Ha Hno; cbn [dump_peers].
  - exists []. rewrite app_nil_r. split; [reflexivity|]. split; [exact Ha|]. split; [intros k v [] | intros p []].
  - cbn [map] in Hk. inversion Hk as [|? ? Hk1 Hk2]; subst.
    assert (Hin2 : forall q, In q l -> In q (n_peers n)) by (intros q Hq; apply Hin; right; exact Hq).
    destruct (is_enabled p) eqn:Ee; cbn [negb].
    + destruct Hok as (H1 & H2 & Hkey & H4). destruct (Hkey p (Hin p (or_introl eq_refl))) as [Hl Hw]. pose proof (conj H1 (conj H2 (conj Hkey H4))) as Hok.
      destruct (key_text _ Hl Hw) as (s & Es & Hs & Hc). rewrite Es. cbn [bind].
      destruct (peer_shown P x n p R Hok (Hin p (or_introl eq_refl))) as (j & Ej & Hj). rewrite Ej. cbn [bind].
      assert (Hnew : ~ In s (map fst acc)).
      { intros X. apply in_map_iff in X. destruct X as ((k & v) & E & X). cbn in E. subst k. exact (Hno s v p X (or_introl eq_refl) Hs). }
      rewrite obj_add_new by exact Hnew.
      destruct (IH (acc ++ [(s, j)]) R Hok Hin2 Hk2) as (r & Er & N & F1 & F2).
      * rewrite map_app. cbn [map fst]. apply NoDup_rev in Ha. rewrite <- (rev_involutive (map fst acc ++ [s])). apply NoDup_rev. rewrite rev_app_distr. cbn.
        constructor; [rewrite <- in_rev; exact Hnew | exact Ha].
      * intros k v q X Hq. apply in_app_or in X. destruct X as [X|[X|[]]]; [exact (Hno k v q X (or_intror Hq))|]. injection X as <- <-.
        intros Hsq. apply Hk1. rewrite (spells_fun _ _ Hs _ Hsq). apply in_map. exact Hq.
      * exists ((s, j) :: r). rewrite <- app_assoc in Er, N. split; [exact Er|]. split; [exact N|]. split.
        -- intros k v [X|X]; [injection X as <- <-; exists p; split; [left; reflexivity|]; split; [apply enabled_iff; exact Ee|]; split; assumption|].
           destruct (F1 k v X) as (q & Hq & Y). exists q. split; [right; exact Hq | exact Y].
        -- intros q [<-|Hq] He; [exists s, j; split; [left; reflexivity|]; split; [exact Hs|]; split; [exact Hc | exact Hj]|].
           destruct (F2 q Hq He) as (k & v & X & Y). exists k, v. split; [right; exact X | exact Y].
    + destruct (IH acc R Hok Hin2 Hk2 Ha) as (r & Er & N & F1 & F2); [intros k v q X Hq; exact (Hno k v q X (or_intror Hq))|].
      exists r. split; [exact Er|]. split; [exact N|]. split.
      * intros k v X. destruct (F1 k v X) as (q & Hq & Y). exists q. split; [right; exact Hq | exact Y].
      * intros q [<-|Hq] He; [apply enabled_iff in He; congruence | exact (F2 q Hq He)].
Qed.

Lemma status_shown : forall P x n, reachable P n -> status_ok x n -> exists j, dump_status x n = Ok j /\ shows_status P x n j.
Proof.
  intros P x n R Hok. unfold dump_status.
  destruct (peers_shown P x n (n_peers n) [] R Hok (fun p H => H) (wf_key _ (i_wf _ _ (i_0 _ _ (reachable_inv P n R))))) as (r & Er & N & F1 & F2);
    [constructor | intros k v p [] |].
  rewrite Er. cbn [bind app] in *. cbv zeta.
  destruct (x_iface x) eqn:Ei; eexists; (split; [reflexivity|]); objs; unfold shows_status; rewrite Ei;
    (split; [is_object|]); (split; [is_field|]);
    (split; [first [intros X; contradiction X; reflexivity | intros _; is_field]|]);
    (split; [eexists; split; [is_field | apply counters_shown]|]);
    (exists r; split; [is_field|]; split; [exact N|]; split; [exact F1 | exact F2]).
Qed.

(** ** Writing *)
Lemma write_loop_spec : forall ws text es o, write_loop text ws = (es, o) ->
  (exists rest, text = received es ++ rest /\
     match o with
     | Finished => rest = [] \/ In WError ws
     | Waiting => rest <> [] /\ received es = firstn (total ws) text /\ (total ws < List.length text)%nat
     end) /\ Forall uses_fd es.
Proof.
  intros ws. induction ws as [|w ws IH]; intros text es o H; destruct text as [|b text].
  - cbn in H. injection H as <- <-. split; [|constructor]. exists []. split; [reflexivity | left; reflexivity].
  - cbn in H. injection H as <- <-. split; [|constructor]. exists (b :: text). split; [reflexivity|]. split; [discriminate|]. split; [reflexivity | cbn; lia].
  - cbn in H. injection H as <- <-. split; [|constructor]. exists []. split; [reflexivity | left; reflexivity].
  - destruct w as [k|].
    2:{ cbn in H. injection H as <- <-. split; [|constructor]. exists (b :: text). split; [reflexivity | right; left; reflexivity]. }
    remember (b :: text) as t eqn:Et. assert (Hw : write_loop t (Wrote k :: ws) =
      let k := Nat.min k (List.length t) in let (es, o) := write_loop (skipn k t) ws in (FWrite (firstn k t) :: es, o)) by (subst t; reflexivity).
    rewrite Hw in H. cbv zeta in H. clear Hw. destruct (write_loop (skipn (Nat.min k (List.length t)) t) ws) as [es1 o1] eqn:E. injection H as <- <-.
    destruct (IH _ _ _ E) as [(rest & E1 & Ho) Hu]. split; [|constructor; [exact Logic.I | exact Hu]].
    exists rest. cbn [received]. split.
    + rewrite <- app_assoc, <- E1, firstn_skipn. reflexivity.
    + destruct o1; [destruct Ho as [Ho|Ho]; [left; exact Ho | right; right; exact Ho]|].
      destruct Ho as (H1 & H2 & H3). rewrite skipn_length in H3. split; [exact H1|]. cbn [total fold_right]. fold (total ws).
      assert (k <= List.length t)%nat by lia. rewrite Nat.min_l in * by assumption. split; [|lia].
      rewrite H2. rewrite <- (firstn_skipn k t) at 3. rewrite firstn_app, firstn_length, Nat.min_l by assumption.
      replace (k + total ws - k)%nat with (total ws) by lia. rewrite (firstn_all2 (firstn k t)) by (rewrite firstn_length; lia). reflexivity.
Qed.
Lemma received_app : forall a b, received (a ++ b) = received a ++ received b.
Proof. intros a b. induction a as [|e a IH]; [reflexivity|]. destruct e; cbn [app received]; rewrite ?IH, ?app_assoc; reflexivity. Qed.
Lemma uses_ends : forall l e, Forall uses_fd l -> ends e l = 0%nat.
Proof. intros l e H. unfold ends. induction H as [|f l Hf _ IH]; [reflexivity|]. destruct f; try contradiction. cbn [filter]. destruct e; exact IH. Qed.
Lemma ends_app : forall e a b, ends e (a ++ b) = (ends e a + ends e b)%nat.
Proof. intros e a b. unfold ends. rewrite filter_app, app_length. reflexivity. Qed.

Lemma start_spec : forall text created ws es o, dump_start text created ws = (es, o) ->
  (exists rest, text = received es ++ rest /\
     match o with
     | Finished => created = true -> ~ In WError ws -> rest = []
     | Waiting => rest <> [] /\ (total ws < List.length text)%nat
     end) /\
  (forall a b, es = a ++ FClose :: b -> received b = []) /\
  (forall e, e = FClose \/ e = FPutJson \/ e = FFreeArg -> ends e es = match o with Finished => 1%nat | Waiting => 0%nat end).
Proof.
  intros text created ws es o H. unfold dump_start in H. destruct created.
  2:{ injection H as <- <-. split; [|split].
      - exists text. split; [reflexivity | discriminate].
      - intros a b E. destruct a as [|x a]; [injection E as <-; reflexivity|]. destruct a as [|y a]; [discriminate|]. destruct a as [|z a]; [discriminate|].
        destruct a; discriminate.
      - intros e [->|[->| ->]]; reflexivity. }
  unfold dump_thread in H. destruct (write_loop text ws) as [es1 o1] eqn:E. destruct (write_loop_spec _ _ _ _ E) as [(rest & E1 & Ho) Hu].
  destruct o1; injection H as <- <-.
  - split; [|split].
    + exists rest. rewrite received_app. cbn [received]. rewrite app_nil_r. split; [exact E1|]. intros _ Hn. destruct Ho as [Ho|Ho]; [exact Ho | contradiction].
    + intros a b X. clear E E1 Ho. revert a X. induction Hu as [|f l Hf _ IH]; intros a X.
      * destruct a as [|x a]; [injection X as <-; reflexivity|]. destruct a as [|y a]; [discriminate|]. destruct a as [|z a]; [discriminate|]. destruct a; discriminate.
      * destruct a as [|x a]; [injection X as -> _; contradiction|]. injection X as _ X. exact (IH a X).
    + intros e He. rewrite ends_app, (uses_ends _ _ Hu). destruct He as [->|[->| ->]]; reflexivity.
  - split; [|split].
    + exists rest. destruct Ho as (H1 & _ & H2). split; [exact E1 | split; assumption].
    + intros a b X. exfalso. rewrite X in Hu. apply Forall_app in Hu. destruct Hu as [_ Hu]. inversion Hu as [|? ? Hf _]. exact Hf.
    + intros e _. apply uses_ends. exact Hu.
Qed.

(** ** Several instances *)
Definition active (f : phase) : bool := match f with PStart | PDead => false | _ => true end.
Definition sys_inv (y : sys) : Prop :=
  (forall p, active (y_phase y p) = true -> y_lock y = Some p) /\
  (forall p, y_lock y = Some p -> active (y_phase y p) = true) /\
  (forall p, y_phase y p = PUnlinked -> y_path y = None) /\
  (forall p, y_phase y p = PBound -> y_path y = Some p).
Lemma upd_same : forall f p v, upd f p v p = v.
Proof. intros f p v. unfold upd. rewrite N.eqb_refl. reflexivity. Qed.
Lemma upd_other : forall f p v q, q <> p -> upd f p v q = f q.
Proof. intros f p v q H. unfold upd. apply N.eqb_neq in H. rewrite H. reflexivity. Qed.
Lemma unlock_some : forall l p q, unlock l p = Some q <-> l = Some q /\ q <> p.
Proof.
  intros l p q. unfold unlock. destruct l as [r|]; [|split; [discriminate | intros [X _]; discriminate]].
  destruct (N.eqb_spec r p) as [E|E]; split; try discriminate; intros X.
  - destruct X as [X Y]. injection X as ->. contradiction.
  - injection X as ->. split; [reflexivity | exact E].
  - exact (proj1 X).
Qed.

Lemma sys_inv_step : forall y s, sys_inv y -> sys_inv (sys_step y s).
Proof.
  intros y s (A & B & C & D).
  assert (One : forall p q, active (y_phase y p) = true -> active (y_phase y q) = true -> q = p).
  { intros p q Hp Hq. apply A in Hp, Hq. congruence. }
  assert (Oth : forall p q, active (y_phase y p) = true -> q <> p -> active (y_phase y q) = false).
  { intros p q Hp Hq. destruct (active (y_phase y q)) eqn:E; [|reflexivity]. exfalso. apply Hq. exact (One p q Hp E). }
  (* a process that has the lock moves to another phase *)
  assert (Move : forall p v path, active (y_phase y p) = true -> active v = true -> (v = PUnlinked -> path = None) -> (v = PBound -> path = Some p) ->
            sys_inv (mk_sys (upd (y_phase y) p v) (y_lock y) path)).
  { intros p v path Hp Hv H1 H2. split; [|split; [|split]]; intros q; cbn [y_phase y_lock y_path]; destruct (N.eq_dec q p) as [->|Hq];
      rewrite ?upd_same, ?upd_other by assumption; intros X.
    - exact (A p Hp).
    - rewrite (Oth p q Hp Hq) in X. discriminate.
    - exact Hv.
    - exact (B q X).
    - exact (H1 X).
    - exfalso. pose proof (Oth p q Hp Hq) as Y. rewrite X in Y. discriminate.
    - exact (H2 X).
    - exfalso. pose proof (Oth p q Hp Hq) as Y. rewrite X in Y. discriminate. }
  (* a process ends *)
  assert (End : forall p, sys_inv (mk_sys (upd (y_phase y) p PDead) (unlock (y_lock y) p) (y_path y))).
  { intros p. split; [|split; [|split]]; intros q; cbn [y_phase y_lock y_path]; destruct (N.eq_dec q p) as [->|Hq];
      rewrite ?upd_same, ?upd_other by assumption; intros X; try discriminate.
    - apply unlock_some. split; [exact (A q X) | exact Hq].
    - apply unlock_some in X. destruct X as [_ X]. contradiction.
    - apply unlock_some in X. destruct X as [X _]. exact (B q X).
    - exact (C q X).
    - exact (D q X). }
  destruct s as [p|p|p|p|p|p]; cbn [sys_step].
  - destruct (y_phase y p) eqn:Ep; try (split; [|split; [|split]]; assumption). destruct (y_lock y) as [h|] eqn:El.
    + assert (Hu : unlock (Some h) p = Some h).
      { apply unlock_some. split; [reflexivity|]. intros ->. specialize (B p eq_refl). rewrite Ep in B. discriminate. }
      specialize (End p). rewrite Hu in End. exact End.
    + assert (None_active : forall q, active (y_phase y q) = false).
      { intros q. destruct (active (y_phase y q)) eqn:E; [|reflexivity]. apply A in E. discriminate. }
      split; [|split; [|split]]; intros q; cbn [y_phase y_lock y_path]; destruct (N.eq_dec q p) as [->|Hq]; rewrite ?upd_same, ?upd_other by assumption; intros X;
        try discriminate; try reflexivity.
      * rewrite None_active in X. discriminate.
      * congruence.
      * specialize (None_active q). rewrite X in None_active. discriminate.
      * specialize (None_active q). rewrite X in None_active. discriminate.
  - destruct (y_phase y p) eqn:Ep; try (split; [|split; [|split]]; assumption).
    apply Move; [rewrite Ep; reflexivity | reflexivity | reflexivity | discriminate].
  - destruct (y_phase y p) eqn:Ep; try (split; [|split; [|split]]; assumption). rewrite (C p Ep).
    apply Move; [rewrite Ep; reflexivity | reflexivity | discriminate | reflexivity].
  - destruct (y_phase y p) eqn:Ep; try (split; [|split; [|split]]; assumption).
    apply Move; [rewrite Ep; reflexivity | reflexivity | discriminate | discriminate].
  - destruct (y_phase y p) eqn:Ep; try (split; [|split; [|split]]; assumption). apply End.
  - apply End.
Qed.
Lemma sys_inv_run : forall l y, sys_inv y -> sys_inv (sys_run y l).
Proof. intros l. induction l as [|s l IH]; intros y H; [exact H|]. apply IH. apply sys_inv_step. exact H. Qed.
Lemma sys_inv_init : forall path, sys_inv (mk_sys (fun _ => PStart) None path).
Proof. intros path. split; [|split; [|split]]; intros p; discriminate. Qed.

Lemma sys_safe : forall path l, let y := sys_run (mk_sys (fun _ => PStart) None path) l in
  (forall p, y_phase y p = PBound -> y_path y = Some p) /\
  (forall p, y_phase y p = PUnlinked -> y_phase (sys_step y (SBind p)) p = PBound) /\
  (forall p, y_phase y p = PStart -> (forall q, y_phase y q = PStart \/ y_phase y q = PDead) ->
     y_phase (sys_run y [SLock p; SUnlink p; SBind p]) p = PBound).
Proof.
  intros path l y. destruct (sys_inv_run l _ (sys_inv_init path)) as (A & B & C & D). fold y in A, B, C, D.
  split; [exact D|]. split.
  - intros p Hp. cbn [sys_step]. rewrite Hp, (C p Hp). apply upd_same.
  - intros p Hp Hall. assert (El : y_lock y = None).
    { destruct (y_lock y) as [q|] eqn:E; [|reflexivity]. specialize (B q eq_refl). destruct (Hall q) as [X|X]; rewrite X in B; discriminate. }
    unfold sys_run. cbn [fold_left sys_step]. rewrite Hp, El. cbn [y_phase y_lock y_path]. rewrite !upd_same. cbn [y_phase y_lock y_path]. rewrite !upd_same.
    cbn [y_phase y_lock y_path]. rewrite !upd_same. reflexivity.
Qed.
