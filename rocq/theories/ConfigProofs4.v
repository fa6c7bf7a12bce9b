(** The other direction: the text of a statement is read as this statement. *)
From Verif Require Import Base BufferModel MethodModel AddrModel LexModel LexSpec HexSpec ConfigModel ConfigSpec ConfigProofs ConfigProofs2 ConfigProofs3.
From Coq Require Import String.
Local Open Scope N_scope.

(** The next token is there and not one of these *)
Definition starts (bad : tok -> bool) (r : list tok) : Prop :=
  match r with [] | TErr _ :: _ => False | t :: _ => bad t = false end.
Definition is_kw (k : kw) (t : tok) : bool := match t with TKey k' => kw_eqb k k' | _ => false end.
Definition port_start (t : tok) : bool := is_kw Kport t || match t with TChar c => c =? 58 | _ => false end.

Lemma ret_ok {A} (a : A) s : yields (ret a) s a s. Proof. reflexivity. Qed.
Lemma next_ok t r c g p : (forall e, t <> TErr e) -> yields next_tok (Pst (t :: r) c g p) t (Pst r c g p).
Proof. intros H. unfold yields, next_tok. cbn. destruct t; try reflexivity. destruct (H e eq_refl). Qed.
Lemma peek_ok t r c g p : (forall e, t <> TErr e) -> yields peek (Pst (t :: r) c g p) t (Pst (t :: r) c g p).
Proof. intros H. unfold yields, peek. cbn. destruct t; try reflexivity. destruct (H e eq_refl). Qed.
Lemma key_ok k r c g p : yields (key k) (Pst (TKey k :: r) c g p) tt (Pst r c g p).
Proof. unfold key, yields, bnd, next_tok. cbn -[kw_eqb]. rewrite kw_eqb_refl. reflexivity. Qed.
Lemma chr_ok x r c g p : yields (chr x) (Pst (TChar x :: r) c g p) tt (Pst r c g p).
Proof. unfold chr, yields, bnd, next_tok. cbn -[N.eqb]. rewrite N.eqb_refl. reflexivity. Qed.
Lemma semi_ok r c g p : yields semicolon (Pst (TChar 59 :: r) c g p) tt (Pst r c g p).
Proof. apply chr_ok. Qed.
Lemma str_ok v r c g p : yields str (Pst (TStr v :: r) c g p) v (Pst r c g p).
Proof. reflexivity. Qed.
Lemma uint_ok v r c g p : yields uint (Pst (TUint v :: r) c g p) v (Pst r c g p).
Proof. reflexivity. Qed.
Lemma modify_ok f r c g p : yields (modify f) (Pst r c g p) tt (Pst r (f c) g p).
Proof. reflexivity. Qed.
Lemma get_group_ok r c g p : yields get_group (Pst r c g p) g (Pst r c g p).
Proof. reflexivity. Qed.
Lemma get_peer_ok r c g p : yields get_peer (Pst r c g p) p (Pst r c g p).
Proof. reflexivity. Qed.
Lemma set_peer_ok q r c g p : yields (set_peer q) (Pst r c g p) tt (Pst r c g q).
Proof. reflexivity. Qed.
Lemma modify_peer_ok f r c g q : yields (modify_peer f) (Pst r c g (Some q)) tt (Pst r c g (Some (f q))).
Proof. reflexivity. Qed.
Lemma opt_yes k r c g p : yields (opt k) (Pst (TKey k :: r) c g p) true (Pst r c g p).
Proof. unfold opt, yields, bnd, peek, next_tok. cbn -[kw_eqb]. rewrite kw_eqb_refl. reflexivity. Qed.
Lemma opt_no k r c g p : starts (is_kw k) r -> yields (opt k) (Pst r c g p) false (Pst r c g p).
Proof.
  destruct r as [|t r]; [intros []|]. unfold starts, opt, yields, bnd, peek, is_kw. destruct t; try contradiction; intros H; cbn -[kw_eqb]; try reflexivity.
  rewrite H. reflexivity.
Qed.

Ltac solved := solve [apply key_ok | apply semi_ok | apply chr_ok | apply str_ok | apply uint_ok | apply modify_ok | apply get_group_ok | apply ret_ok |
  apply get_peer_ok | apply set_peer_ok | apply modify_peer_ok | apply opt_yes | apply opt_no; reflexivity |
  apply next_ok; intros; discriminate | apply peek_ok; intros; discriminate].
Ltac go := repeat first [eapply bnd_intro; [solved|cbv beta iota] | solved].

Lemma boolean_ok b r c g p : yields boolean (Pst (tok_of (yesno b) :: r) c g p) b (Pst r c g p).
Proof. destruct b; unfold yesno; autorewrite with tk; unfold boolean; go. Qed.
Lemma autobool_ok b r c g p : yields autobool (Pst (tok_of (match b with None => K "auto" | Some b => yesno b end) :: r) c g p) tt (Pst r c g p).
Proof. destruct b as [[|]|]; unfold yesno; autorewrite with tk; unfold autobool; go. Qed.
Lemma sync_ok sy r c g p : starts (fun t => is_kw Ksync t || is_kw Kasync t) r ->
  yields sync (Pst (map tok_of (sync_text sy) ++ r) c g p) (is_sync sy) (Pst r c g p).
Proof.
  intros S. destruct sy as [[|]|]; cbn [sync_text map app is_sync]; autorewrite with tk; unfold sync; go.
  destruct r as [|t r]; [destruct S|]. eapply bnd_intro; [apply peek_ok; intros e ->; exact S|cbv beta].
  destruct t; try apply ret_ok. destruct k; try apply ret_ok; discriminate S.
Qed.
Lemma log_level_ok l r c g p : yields log_level (Pst (tok_of (level_text l) :: r) c g p) l (Pst r c g p).
Proof. destruct l; unfold level_text; autorewrite with tk; unfold log_level; go. Qed.
Lemma maybe_log_level_ok ol r c g p : starts (is_kw Klevel) r ->
  yields maybe_log_level (Pst (map tok_of (maybe_level_text ol) ++ r) c g p) (or_default ol) (Pst r c g p).
Proof.
  intros S. destruct ol as [l|]; cbn [maybe_level_text map app or_default]; autorewrite with tk; unfold maybe_log_level; go.
  - apply log_level_ok.
  - eapply bnd_intro; [apply opt_no; exact S|]. apply ret_ok.
Qed.
Lemma colon_ok x r c g p : yields colon_or_port (Pst (tok_of (match x with Colon => LChar 58 | Word => K "port" end) :: r) c g p) tt (Pst r c g p).
Proof. destruct x; cbn [tok_of]; autorewrite with tk; unfold colon_or_port; go. Qed.
Lemma port_ok x n r c g p : port_fine (x, n) -> yields port (Pst (map tok_of (port_text (x, n)) ++ r) c g p) n (Pst r c g p).
Proof.
  unfold port_fine. cbn [snd]. intros B. unfold port. eapply bnd_intro; [apply colon_ok|]. go. cbn [snd].
  destruct ((n <? 1) || (65535 <? n)) eqn:D; [lia|]. apply ret_ok.
Qed.
Lemma bind_port_ok x n r c g p : n <= 65535 -> yields bind_port (Pst (map tok_of (port_text (x, n)) ++ r) c g p) n (Pst r c g p).
Proof.
  intros B. unfold bind_port. eapply bnd_intro; [apply colon_ok|]. go. cbn [snd].
  destruct (65535 <? n) eqn:D; [lia|]. apply ret_ok.
Qed.
Lemma maybe_bind_port_ok op r c g p : bind_port_fine op -> starts port_start r ->
  yields maybe_bind_port (Pst (map tok_of (maybe_port_text op) ++ r) c g p) (option_map snd op) (Pst r c g p).
Proof.
  intros B S. destruct op as [[x n]|]; cbn [maybe_port_text option_map snd bind_port_fine] in *.
  - assert (Y : yields (let! n <- bind_port; ret (Some n)) (Pst (map tok_of (port_text (x, n)) ++ r) c g p) (Some n) (Pst r c g p))
      by (eapply bnd_intro; [apply bind_port_ok; exact B|apply ret_ok]).
    unfold maybe_bind_port. destruct x; unfold port_text in *; cbn [fst snd map app tok_of] in *; autorewrite with tk in *;
      (eapply bnd_intro; [apply peek_ok; intros; discriminate|]); exact Y.
  - cbn [map app]. unfold maybe_bind_port. destruct r as [|t r]; [destruct S|].
    eapply bnd_intro; [apply peek_ok; intros e ->; exact S|cbv beta]. unfold port_start, is_kw in S.
    destruct t; try apply ret_ok.
    + cbn in S. rewrite S. apply ret_ok.
    + destruct k; try apply ret_ok. discriminate S.
Qed.
Lemma maybe_bind_interface_ok i r c g p : starts (is_kw Kinterface) r ->
  yields maybe_bind_interface (Pst (map tok_of (match i with None => [] | Some s => [K "interface"; LStr s] end) ++ r) c g p) i (Pst r c g p).
Proof.
  intros S. unfold maybe_bind_interface. destruct i as [s|]; cbn [map app tok_of]; autorewrite with tk.
  - go.
  - eapply bnd_intro; [apply opt_no; exact S|]. apply ret_ok.
Qed.
Lemma maybe_as_ok i r c g p : starts (is_kw Kas) r ->
  yields maybe_as (Pst (map tok_of (match i with None => [] | Some s => [K "as"; LStr s] end) ++ r) c g p) i (Pst r c g p).
Proof.
  intros S. unfold maybe_as. destruct i as [s|]; cbn [map app tok_of]; autorewrite with tk.
  - go.
  - eapply bnd_intro; [apply opt_no; exact S|]. apply ret_ok.
Qed.
Lemma maybe_bind_default_ok od r c g p : starts (fun t => is_kw Kdefault t || is_kw Kipv4 t || is_kw Kipv6 t) r ->
  yields maybe_bind_default (Pst (map tok_of (default_text od) ++ r) c g p) (for4 od, for6 od) (Pst r c g p).
Proof.
  intros S. unfold maybe_bind_default.
  destruct od as [[[|]|]|]; cbn [default_text map app for4 for6]; unfold family_text; autorewrite with tk; go.
  - destruct r as [|t r]; [destruct S|]. eapply bnd_intro; [apply peek_ok; intros e ->; exact S|cbv beta].
    destruct t; try apply ret_ok. destruct k; try apply ret_ok; discriminate S.
  - eapply bnd_intro; [apply opt_no|apply ret_ok].
    destruct r as [|t r]; [exact S|]. unfold starts in *. destruct t; try exact S; try reflexivity.
    destruct (is_kw Kdefault (TKey k)); [discriminate S|reflexivity].
Qed.

Definition on_only (s : setting) : bool := match s with SPreUp _ | SPostDown _ => true | _ => false end.
Ltac words := repeat (rewrite ?map_app; unfold setting_text; cbn [map app tok_of semi hd tl]; unfold semi; cbn [tok_of]; autorewrite with tk).

Lemma global_ok E cwd s r c g p : setting_fine E s -> on_only s = false ->
  yields (global_stmt E cwd (tok_of (hd semi (setting_text s)))) (Pst (map tok_of (tl (setting_text s)) ++ r) c g p) tt (Pst r (app_set E cwd s c) g p).
Proof.
  intros F O. destruct s; try discriminate O; cbn [setting_fine] in F.
  - words. unfold global_stmt. rewrite F. go.
  - words. unfold global_stmt. rewrite F. go.
  - words. unfold global_stmt. go. unfold drop_stmt. destruct c0; autorewrite with tk.
    1,2: eapply bnd_intro; [eapply bnd_intro; [apply peek_ok; intros; discriminate|]; cbv beta iota;
      eapply bnd_intro; [first [exact (boolean_ok false _ _ _ _) | exact (boolean_ok true _ _ _ _)]|apply modify_ok]|go].
    1,2: eapply bnd_intro; [eapply bnd_intro; [apply peek_ok; intros; discriminate|]; cbv beta iota;
      eapply bnd_intro; [solved|apply modify_ok]|go].
  - words. unfold global_stmt. go. eapply bnd_intro; [apply boolean_ok|]. go.
  - words. unfold global_stmt. go. rewrite F. go.
  - words. unfold global_stmt. go. rewrite F. go.
  - words. unfold global_stmt. eapply bnd_intro; [|apply semi_ok]. unfold log_stmt. go. eapply bnd_intro; [apply log_level_ok|].
    eapply bnd_intro; [apply modify_ok|]. cbv beta.
    replace (app_set E cwd (SLogLevel l) c) with
      ((fun c => match c_stderr c, c_syslog c with None, Some _ => c | _, _ => set_c_stderr (Some l) c end)
         match c_syslog c with Some _ => set_c_syslog (Some l) c | None => c end); [apply modify_ok|].
    destruct c as [? ? ? ? ? err sys]. unfold app_set, log_step, set_c_stderr, set_c_syslog; cbn. destruct err, sys; reflexivity.
  - words. unfold global_stmt. eapply bnd_intro; [|apply semi_ok]. unfold log_stmt. go. rewrite <- app_assoc.
    eapply bnd_intro; [apply maybe_log_level_ok; reflexivity|].
    replace (app_set E cwd (SLogStderr l) c) with (set_c_stderr (Some (or_default l)) c); [apply modify_ok|].
    destruct c, l; reflexivity.
  - unfold setting_text. destruct ident as [i|]; words; unfold global_stmt; (eapply bnd_intro; [|apply semi_ok]); unfold log_stmt; go.
    + rewrite <- app_assoc. eapply bnd_intro; [apply maybe_log_level_ok; reflexivity|]. go.
    + eapply bnd_intro; [apply opt_no; destruct l; reflexivity|]. cbv iota. rewrite <- app_assoc.
      eapply bnd_intro; [apply maybe_log_level_ok; reflexivity|]. go.
  - words. unfold global_stmt. go. eapply bnd_intro; [apply boolean_ok|]. go.
  - words. unfold global_stmt. go. eapply bnd_intro; [apply boolean_ok|]. go.
  - words. unfold global_stmt. apply ifname_iff in F. go. rewrite F. go.
  - destruct F as [F1 F2]. apply refused_iff in F2. words. unfold global_stmt. eapply bnd_intro; [|apply semi_ok].
    unfold bind_stmt. rewrite <- !app_assoc.
    assert (Y : yields (let! p <- maybe_bind_port; let! i <- maybe_bind_interface; let! d <- maybe_bind_default; handle_bind_address E (host_of h) p i d)
      (Pst (map tok_of (maybe_port_text p0) ++ map tok_of match dev with Some s => [K "interface"; LStr s] | None => [] end ++ map tok_of (default_text dflt) ++ [TChar 59] ++ r) c g p)
      tt (Pst ([TChar 59] ++ r) (app_set E cwd (SBind h p0 dev dflt) c) g p)).
    { eapply bnd_intro; [apply maybe_bind_port_ok; [exact F1|]|]. { destruct dev, dflt as [[[|]|]|]; reflexivity. }
      eapply bnd_intro; [apply maybe_bind_interface_ok|]. { destruct dflt as [[[|]|]|]; reflexivity. }
      eapply bnd_intro; [apply maybe_bind_default_ok; reflexivity|].
      unfold yields. rewrite handle_bind_eq by exact F1. rewrite F2. reflexivity. }
    destruct h; cbn [tok_of]; autorewrite with tk; (eapply bnd_intro; [apply next_ok; intros; discriminate|]); exact Y.
  - destruct F as [F1 F2]. apply refused_iff in F2. words. unfold global_stmt. eapply bnd_intro; [|apply semi_ok].
    unfold bind_stmt. rewrite <- !app_assoc. eapply bnd_intro; [apply next_ok; intros; discriminate|]. cbv beta iota.
    eapply bnd_intro; [apply maybe_bind_port_ok; [exact F1|]|]. { destruct dflt as [[[|]|]|]; reflexivity. }
    eapply bnd_intro; [apply maybe_bind_default_ok; reflexivity|].
    unfold yields. rewrite (handle_bind_eq E (H6 a)) by exact F1. rewrite F2. reflexivity.
  - words. unfold global_stmt. go. rewrite F. go.
  - words. unfold global_stmt. go. destruct ((n <? 576) || (65535 <? n)) eqn:D; [lia|]. rewrite N.mod_small by lia. go.
  - unfold setting_text. destruct b as [b|]; words; unfold global_stmt;
      (eapply bnd_intro; [first [exact (autobool_ok (Some b) _ _ _ _) | exact (autobool_ok None _ _ _ _)]|]); go.
  - words. unfold global_stmt. destruct m; autorewrite with tk; go.
  - words. unfold global_stmt. go. eapply bnd_intro; [apply boolean_ok|]. go.
  - words. unfold global_stmt. go. eapply bnd_intro; [apply boolean_ok|]. unfold app_set. destruct (b_offload (e_build E)); [go|].
    destruct b; [discriminate (F eq_refl)|]. go.
  - words. unfold global_stmt. go. subst s. replace (bytes_eqb (e_protocol E) (e_protocol E)) with true by (symmetry; apply word_eqb; reflexivity). go.
  - words. unfold global_stmt. go.
  - words. unfold global_stmt. go. rewrite F. go.
  - words. unfold global_stmt. go. eapply bnd_intro; [apply boolean_ok|]. go.
Qed.
