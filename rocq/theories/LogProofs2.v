From Coq Require DecimalFacts DecimalN.
From Coq Require Import String Lia ZifyBool ZifyNat ZifyN.
From Verif Require Import Base BufferModel MethodModel AddrModel AddrSpec FormatModel FormatSpec FormatProofs LogModel LogTable HexSpec LogSpec LogProofs.
Local Open Scope N_scope.

Lemma calls_typed : forall k, In k calls -> typed (str (k_fmt k)) (k_args k) = true.
Proof.
  assert (H : forallb (fun k => typed (str (k_fmt k)) (k_args k)) calls = true) by (vm_compute; reflexivity).
  intros k Hk. rewrite forallb_forall in H. exact (H k Hk).
Qed.
Lemma calls_levels : forall k, In k calls -> 1 <= k_level k <= 7.
Proof.
  assert (H : forallb (fun k => (1 <=? k_level k) && (k_level k <=? 7)) calls = true) by (vm_compute; reflexivity).
  intros k Hk. rewrite forallb_forall in H. specialize (H k Hk). lia.
Qed.

Lemma fits_string : forall ts vals, Forall2 fits ts vals -> Forall (fun v => vfree 0 TInt v) vals.
Proof.
  intros ts vals H. induction H as [|t v ts vals Hv Hvs IH]; constructor; auto. unfold vfree.
  destruct v as [| | |[s|]| |[[[name|] key]|]| | |]; try exact Logic.I; destruct t; try contradiction; exact Hv.
Qed.

Lemma level_cases : forall level, (level = 0 \/ level = 1 \/ level = 2 \/ level = 3 \/ level = 4 \/ level = 5 \/ level = 6 \/ level = 7) \/ 8 <= level.
Proof. intros level. lia. Qed.
Lemma level_prefix : forall level, log_prefix level = level_name level.
Proof.
  intros level. destruct (level_cases level) as [H|H].
  - repeat (destruct H as [->|H]; [vm_compute; reflexivity|]). subst level. vm_compute. reflexivity.
  - unfold level_name. rewrite nth_overflow by (cbn [map List.length]; lia). unfold log_prefix, LL_FATAL, LL_ERROR, LL_WARN, LL_INFO, LL_VERBOSE, LL_DEBUG, LL_DEBUG2.
    repeat match goal with |- context [level =? ?k] => replace (level =? k) with false by (symmetry; apply N.eqb_neq; lia) end. reflexivity.
Qed.
Lemma level_priority : forall level, syslog_level level = priority level.
Proof.
  intros level. destruct (level_cases level) as [H|H].
  - repeat (destruct H as [->|H]; [vm_compute; reflexivity|]). subst level. vm_compute. reflexivity.
  - unfold priority. rewrite nth_overflow by (cbn [List.length]; lia). unfold syslog_level, LL_FATAL, LL_ERROR, LL_WARN, LL_INFO, LL_VERBOSE.
    repeat match goal with |- context [level =? ?k] => replace (level =? k) with false by (symmetry; apply N.eqb_neq; lia) end. reflexivity.
Qed.

Lemma logf_typed : forall fuel l c buffer level fmt ts vals, List.length buffer = 1024%nat -> lib_ok l -> typed fmt ts = true -> Forall2 fits ts vals ->
  exists text, message l c fmt vals = Some text /\
    logf (S fuel) l c buffer level fmt vals = Ok (destinations l c level (firstn 1023 text)).
Proof.
  intros fuel l c buffer level fmt ts vals Hb Hl Ht Hf.
  destruct (typed_ok l c 0 _ fmt ts vals (le_n _) Ht Hf) as (args & text & H1 & H2 & H3 & H4).
  exists text. split; [exact H3|]. cbn [logf]. unfold destinations. rewrite level_prefix, level_priority.
  destruct (negb (lc_init c) || (level <=? lc_stderr c)) eqn:E1, (lc_init c && (level <=? lc_syslog c)) eqn:E2; cbn [negb andb]; try reflexivity;
    (rewrite H1;
     destruct (vsnprintf_bounds (lc_hide_ip c) buffer fmt args text) as (mem' & n & Ev & _); [rewrite Hb; lia|exact H2|];
     destruct (logf_ok (lc_hide_ip c) buffer fmt args text Hb H2) as (mem'' & El & _ & Ec);
     [apply H4; [left; reflexivity|exact Hl|exact (fits_string ts vals Hf)]|];
     unfold logf_buffer in El; rewrite Ev in El |- *; cbn [bind fst snd] in El |- *; rewrite El; cbn [bind]; rewrite Ec; reflexivity).
Qed.

Lemma all_messages : forall fuel l c buffer k vals, List.length buffer = 1024%nat -> lib_ok l -> In k calls -> Forall2 fits (k_args k) vals ->
  exists text, message l c (str (k_fmt k)) vals = Some text /\
    logf (S fuel) l c buffer (k_level k) (str (k_fmt k)) vals = Ok (destinations l c (k_level k) (firstn 1023 text)).
Proof. intros fuel l c buffer k vals Hb Hl Hk Hf. eapply logf_typed; eauto. apply calls_typed. exact Hk. Qed.

Lemma all_hidden : forall fuel l c buffer buffer' k vals vals', List.length buffer = 1024%nat -> List.length buffer' = 1024%nat -> lib_ok l -> In k calls ->
  Forall2 fits (k_args k) vals -> Forall2 fits (k_args k) vals' -> alike_all c (k_args k) vals vals' ->
  logf (S fuel) l c buffer (k_level k) (str (k_fmt k)) vals = logf (S fuel) l c buffer' (k_level k) (str (k_fmt k)) vals'.
Proof.
  intros fuel l c buffer buffer' k vals vals' Hb Hb' Hl Hk Hf Hf' Ha.
  destruct (all_messages fuel l c buffer k vals Hb Hl Hk Hf) as (text & Em & ->).
  destruct (all_messages fuel l c buffer' k vals' Hb' Hl Hk Hf') as (text' & Em' & ->).
  rewrite (alike_message l c _ _ _ vals vals' (le_n _) (calls_typed k Hk) Hf Hf' Ha) in Em. congruence.
Qed.

(** *** Lines *)
Lemma lines_zero : forall s, newline_free s -> lines s = 0%nat.
Proof.
  induction s as [|x s IH]; intros H; [reflexivity|]. unfold lines. cbn [filter]. destruct (10 =? x) eqn:E; [exfalso; apply H; left; lia|].
  apply IH. intros Hi. apply H. right. exact Hi.
Qed.
Lemma lines_app : forall a b, lines (a ++ b) = (lines a + lines b)%nat.
Proof. intros a b. unfold lines. rewrite filter_app, app_length. reflexivity. Qed.
Lemma prefix_line : forall level, lines (log_prefix level) = 0%nat.
Proof. intros level. unfold log_prefix. repeat match goal with |- context [if ?b then _ else _] => destruct b; [reflexivity|] end. reflexivity. Qed.
Lemma firstn_line : forall n s, newline_free s -> newline_free (firstn n s).
Proof. intros n s H Hi. apply H. rewrite <- (firstn_skipn n). apply in_or_app. left. exact Hi. Qed.

Lemma dest_lines : forall l c level text, newline_free (l_time l) -> newline_free text ->
  forall o, In o (destinations l c level text) -> lines (text_of_out o) = match o with OStderr _ => 1%nat | OSyslog _ _ => 0%nat end.
Proof.
  intros l c level text Hl Ht o Ho. unfold destinations in Ho. apply in_app_or in Ho. destruct Ho as [Ho|Ho].
  - destruct (negb (lc_init c) || (level <=? lc_stderr c)); [destruct Ho as [<-|[]]|destruct Ho]. cbn [text_of_out]. rewrite !lines_app, <- level_prefix, prefix_line, (lines_zero _ Hl), (lines_zero _ Ht). reflexivity.
  - destruct (lc_init c && (level <=? lc_syslog c)); [destruct Ho as [<-|[]]|destruct Ho]. apply lines_zero. exact Ht.
Qed.

Lemma line_vals : forall ts vals, Forall2 fits ts vals -> Forall2 fits_line ts vals -> ~ In TNet ts -> Forall (fun v => vfree 10 TInt v) vals.
Proof.
  intros ts vals H. induction H as [|t v ts vals Hv Hvs IH]; intros Hln Hnet; constructor.
  - inversion Hln as [|t0 v0 ts0 vs0 Hl Hls]; subst. unfold vfree.
    destruct v as [| | |[s|]| |[[[name|] key]|]| | |]; try exact Logic.I; destruct t; try contradiction; try exact Hl. exfalso. apply Hnet. left. reflexivity.
  - apply IH; [inversion Hln; assumption|]. intros Hi. apply Hnet. right. exact Hi.
Qed.

Lemma one_line : forall fuel l c buffer k vals, List.length buffer = 1024%nat -> lib_ok l -> lib_line l -> In k calls -> ~ In TNet (k_args k) ->
  Forall2 fits (k_args k) vals -> Forall2 fits_line (k_args k) vals ->
  exists o, logf (S fuel) l c buffer (k_level k) (str (k_fmt k)) vals = Ok o /\
    forall x, In x o -> lines (text_of_out x) = match x with OStderr _ => 1%nat | OSyslog _ _ => 0%nat end.
Proof.
  intros fuel l c buffer k vals Hb Hl (Hn4 & Hn6 & Hni & Hnt) Hk Hnet Hf Hfl.
  destruct (all_messages fuel l c buffer k vals Hb Hl Hk Hf) as (text & Em & ->). eexists. split; [reflexivity|].
  destruct (typed_ok l c 10 _ _ _ vals (le_n _) (calls_typed k Hk) Hf) as (args & text' & _ & _ & Em' & H4).
  rewrite Em in Em'. injection Em' as <-. apply dest_lines; [exact Hnt|]. apply firstn_line. apply H4; [right; reflexivity|split; [|split]; assumption|].
  eapply line_vals; eassumption.
Qed.

(** *** Unknown conversions *)
Lemma write_len : forall (mem : bytes) pos (b : N), (pos < List.length mem)%nat -> exists mem', write_at mem pos (@cons N b (@nil N)) = Ok mem' /\ List.length mem' = List.length mem.
Proof.
  intros mem pos b H. cbn [write_at]. destruct (Nat.ltb pos (List.length mem)) eqn:E; [|lia].
  eexists. split; [reflexivity|]. rewrite app_length, firstn_length. cbn [List.length]. rewrite skipn_length. lia.
Qed.

Lemma unknown_loop : forall hide lit d rest args mem pos, ~ In 37 lit -> (pos + List.length lit < List.length mem)%nat ->
  d <> 37 -> simple_conv d = false -> d <> 72 -> d <> 73 -> d <> 66 -> d <> 76 ->
  exists mem', format_loop hide (lit ++ 37 :: d :: rest) args mem pos = Ok (mem', None) /\ List.length mem' = List.length mem.
Proof.
  intros hide. induction lit as [|x lit IH]; intros d rest args mem pos Hl Hp H1 H2 H3 H4 H5 H6; cbn [app List.length] in *.
  - cbn [format_loop]. replace (Nat.leb (List.length mem) pos) with false by lia. cbn [N.eqb Pos.eqb negb].
    replace (d =? 37) with false by lia. rewrite H2. replace (d =? 72) with false by lia.
    replace ((d =? 73) || (d =? 66) || (d =? 76)) with false by lia.
    destruct (write_len mem 0 0) as (mem' & -> & Hm); [lia|]. cbn [bind]. eauto.
  - cbn [format_loop]. replace (Nat.leb (List.length mem) pos) with false by lia. replace (x =? 37) with false by (assert (x <> 37) by (intros ->; apply Hl; left; reflexivity); lia).
    cbn [negb]. destruct (write_len mem pos x) as (mem1 & Hw & Hm); [lia|]. change (@cons N x (@nil N)) with (@cons byte x (@nil byte)) in Hw. rewrite Hw. cbn [bind].
    destruct (IH d rest args mem1 (S pos)) as (mem' & E & Hm'); auto; [intros Hi; apply Hl; right; exact Hi|lia|]. exists mem'. split; [exact E|congruence].
Qed.

Lemma fetch_lit : forall l c lit rest vals, ~ In 37 lit -> fetch_all l c (lit ++ rest) vals = fetch_all l c rest vals.
Proof.
  intros l c. induction lit as [|x lit IH]; intros rest vals H; [reflexivity|]. cbn [app fetch_all].
  replace (x =? 37) with false by (assert (x <> 37) by (intros ->; apply H; left; reflexivity); lia). cbn [negb]. apply IH. intros Hi. apply H. right. exact Hi.
Qed.

Definition known (d : N) : bool := (d =? 37) || simple_conv d || (d =? 72) || (d =? 73) || (d =? 66) || (d =? 76).

Lemma unknown_step : forall fuel l c buffer level lit d rest vals, List.length buffer = 1024%nat -> ~ In 37 lit -> (List.length lit < 1024)%nat ->
  known d = false -> (negb (lc_init c) || (level <=? lc_stderr c)) || (lc_init c && (level <=? lc_syslog c)) = true ->
  logf fuel l c buffer LL_WARN unknown_format [VlInt 0] = UB ->
  logf (S fuel) l c buffer level (lit ++ 37 :: d :: rest) vals = UB.
Proof.
  intros fuel l c buffer level lit d rest vals Hb Hl Hlen Hk Hon Hrec. unfold known in Hk.
  assert (Hs : simple_conv d = false) by (destruct (simple_conv d); [exfalso; destruct (d =? 37); discriminate|reflexivity]).
  rewrite Hs in Hk. cbn [logf].
  assert (Hoff : negb (negb (lc_init c) || (level <=? lc_stderr c)) && negb (lc_init c && (level <=? lc_syslog c)) = false) by (rewrite <- negb_orb, Hon; reflexivity).
  rewrite Hoff, (fetch_lit l c lit _ vals Hl). cbn [fetch_all N.eqb Pos.eqb negb].
  assert (HF : fetch l c d vals = FUnknown).
  { unfold simple_conv in Hs. cbn [existsb] in Hs. unfold fetch.
    replace (d =? 37) with false by lia. replace (d =? 105) with false by lia. replace (d =? 117) with false by lia.
    replace ((d =? 85) || (d =? 90)) with false by lia. replace (d =? 115) with false by lia. replace (d =? 112) with false by lia.
    replace (d =? 69) with false by lia. replace (d =? 80) with false by lia. replace (d =? 72) with false by lia.
    replace ((d =? 73) || (d =? 66)) with false by lia. replace (d =? 76) with false by lia. reflexivity. }
  rewrite HF. unfold fastd_vsnprintf. destruct (write_len buffer 0 0) as (mem & -> & Hm); [lia|]. cbn [bind].
  destruct (unknown_loop (lc_hide_ip c) lit d rest [] mem 0) as (mem' & -> & _); auto; try lia. cbn [bind snd]. rewrite Hrec. reflexivity.
Qed.

Lemma unknown_split : unknown_format = str "fastd_vsnprintf: unknown format conversion specifier '" ++ 37 :: 99 :: [39].
Proof. reflexivity. Qed.

Lemma unknown_warning : forall fuel l c buffer vals, List.length buffer = 1024%nat ->
  (negb (lc_init c) || (LL_WARN <=? lc_stderr c)) || (lc_init c && (LL_WARN <=? lc_syslog c)) = true ->
  logf fuel l c buffer LL_WARN unknown_format vals = UB.
Proof.
  induction fuel as [|fuel IH]; intros l c buffer vals Hb Hon; [reflexivity|]. rewrite unknown_split at 1.
  apply unknown_step; auto.
  - vm_compute. intuition discriminate.
  - vm_compute. lia.
Qed.

Lemma unknown_recursion : forall fuel l c buffer level lit d rest vals, List.length buffer = 1024%nat -> ~ In 37 lit -> (List.length lit < 1024)%nat ->
  known d = false -> level <= LL_WARN ->
  (negb (lc_init c) || (LL_WARN <=? lc_stderr c)) || (lc_init c && (LL_WARN <=? lc_syslog c)) = true ->
  logf fuel l c buffer level (lit ++ 37 :: d :: rest) vals = UB.
Proof.
  intros [|fuel] l c buffer level lit d rest vals Hb Hl Hlen Hk Hlev Hon; [reflexivity|]. apply unknown_step; auto.
  { unfold LL_WARN in *. destruct (lc_init c); cbn [negb andb orb] in Hon |- *; [|reflexivity]. apply orb_true_iff in Hon. apply orb_true_iff. lia. }
  apply unknown_warning; assumption.
Qed.

(** *** A received string with a line break *)
Definition response : call := mk_call "protocols/ec25519_fhmqvc/handshake.c" 748 LL_VERBOSE "received handshake response from %P[%I]%s%s" [TPeer; TRemote; TStr; TNet].
Lemma response_in : In response calls.
Proof.
  apply (nth_error_In calls 161). reflexivity.
Qed.

Lemma forged : forall l, lib_ok l -> newline_free (l_time l) ->
  exists k, In k calls /\
  forall c fuel buffer evil, List.length buffer = 1024%nat -> negb (lc_init c) || (k_level k <=? lc_stderr c) = true -> string evil -> (List.length evil <= 900)%nat ->
  exists vals before more, Forall2 fits (k_args k) vals /\ Forall2 fits_line (k_args k) vals /\
    logf (S fuel) l c buffer (k_level k) (str (k_fmt k)) vals = Ok (OStderr (before ++ 10 :: evil ++ [10]) :: more).
Proof.
  intros l Hl Ht. exists response. split; [exact response_in|]. intros c fuel buffer evil Hb Hon He Hlen.
  pose (vals := [VlPeer (Some (Some (str "peer"), None)); VlAddr (Some AUnspec) [0; 0]; VlStr (Some (str " using fastd ")); VlStr (Some (str "v22" ++ 10 :: evil))]).
  exists vals.
  assert (Hf : Forall2 fits (k_args response) vals).
  { constructor; [vm_compute; intuition discriminate|]. constructor; [exact Logic.I|]. constructor; [vm_compute; intuition discriminate|]. constructor; [|constructor].
    cbn [fits]. intros Hi. cbn in Hi. destruct Hi as [Hi|[Hi|[Hi|[Hi|Hi]]]]; try discriminate. exact (He Hi). }
  destruct (all_messages fuel l c buffer response vals Hb Hl response_in Hf) as (text & Em & ->).
  assert (Et : text = str "received handshake response from <peer>[any] using fastd v22" ++ 10 :: evil).
  { cut (Some text = Some (str "received handshake response from <peer>[any] using fastd v22" ++ 10 :: evil)); [intros E; injection E as E; exact E|].
    rewrite <- Em. transitivity (Some (str "received handshake response from <peer>[any] using fastd v22" ++ 10 :: (evil ++ []))); [vm_compute; reflexivity|].
    rewrite app_nil_r. reflexivity. }
  subst text. rewrite firstn_all2.
  2:{ rewrite app_length. cbn [List.length]. replace (List.length (str _)) with 60%nat by reflexivity. lia. }
  unfold destinations. rewrite Hon. cbn [app].
  eexists. eexists. split; [exact Hf|]. split.
  { constructor; [vm_compute; intuition discriminate|]. constructor; [exact Logic.I|]. constructor; [vm_compute; intuition discriminate|]. constructor; [exact Logic.I|constructor]. }
  f_equal. f_equal. f_equal. rewrite <- app_assoc. cbn [app]. rewrite app_assoc. rewrite (app_assoc (l_time l ++ _)). reflexivity.
Qed.

Lemma known_supported : forall d, known d = supported d.
Proof. intros d. unfold known, supported, simple_conv. change (str "%iuUZspEPHIBL") with [37; 105; 117; 85; 90; 115; 112; 69; 80; 72; 73; 66; 76]. cbn [existsb]. lia. Qed.

Lemma unknown_endless : forall fuel l c buffer level lit d rest vals, List.length buffer = 1024%nat -> ~ In 37 lit -> (List.length lit < 1024)%nat ->
  supported d = false -> level <= LL_WARN ->
  (negb (lc_init c) || (LL_WARN <=? lc_stderr c)) || (lc_init c && (LL_WARN <=? lc_syslog c)) = true ->
  logf fuel l c buffer level (lit ++ 37 :: d :: rest) vals = UB.
Proof. intros fuel l c buffer level lit d rest vals Hb Hl Hn Hs. rewrite <- known_supported in Hs. apply unknown_recursion; assumption. Qed.

(** *** Texts of numbers and names *)
Definition val10 : N -> N -> N := fun v c => 10 * v + (c - 48).
Lemma acc_val : forall d acc, N.pos (Pos.of_uint_acc d acc) = fold_left val10 (digits d) (N.pos acc).
Proof.
  intros d. induction d; intros acc; cbn [Pos.of_uint_acc digits fold_left]; [reflexivity|..]; rewrite IHd; f_equal; unfold val10; lia.
Qed.
Lemma digits_val : forall d, N.of_uint d = fold_left val10 (digits d) 0.
Proof.
  intros d. unfold N.of_uint. induction d; cbn [Pos.of_uint digits fold_left]; try (rewrite acc_val; reflexivity); [reflexivity|].
  change (val10 0 48) with 0. exact IHd.
Qed.
Lemma dec_decimal : forall n, decimal (dec n) n.
Proof.
  intros n. unfold dec. pose proof (DecimalN.Unsigned.of_to n) as E.
  assert (U : Decimal.unorm (N.to_uint n) = N.to_uint n) by (rewrite <- DecimalN.Unsigned.to_of, E; reflexivity).
  split; [|split; [|split]].
  - intros c. apply digits_range.
  - change (fold_left val10 (digits (N.to_uint n)) 0 = n). rewrite <- digits_val. exact E.
  - intros H. destruct (N.to_uint n) eqn:Eu; try discriminate.
  - intros r H. destruct (N.to_uint n) as [|d| | | | | | | | |]; try discriminate. cbn [digits] in H. injection H as <-.
    change (Decimal.unorm (Decimal.D0 d)) with (match Decimal.nzhead d with Decimal.Nil => Decimal.D0 Decimal.Nil | d' => d' end) in U.
    pose proof (DecimalFacts.nzhead_nonzero d) as X. destruct (Decimal.nzhead d) eqn:Ez; try discriminate; [injection U as <-; reflexivity|].
    exfalso. eapply X. reflexivity.
Qed.
Lemma hex_two : forall b, b < 256 -> two_digits (hex b) b.
Proof.
  intros b H. unfold hex, hex_digit, two_digits. pose proof (N.div_mod b 16 ltac:(discriminate)) as D. pose proof (N.mod_lt b 16 ltac:(discriminate)).
  assert (b / 16 < 16) by lia. split.
  - replace [b] with [16 * (b / 16) + b mod 16] by (f_equal; lia). constructor; [| |constructor]; unfold digit_is;
      match goal with |- context [?x <? 10] => destruct (N.ltb_spec x 10) end; lia.
  - intros c [<-|[<-|[]]]; unfold is_capital; match goal with |- context [?x <? 10] => destruct (N.ltb_spec x 10) end; lia.
Qed.
Lemma texts : (forall n, decimal (dec n) n) /\
  (forall z, (0 <= z)%Z -> decimal (zdec z) (Z.to_N z)) /\ (forall z, (z < 0)%Z -> exists s, zdec z = str "-" ++ s /\ decimal s (Z.to_N (- z))) /\
  (forall b, b < 256 -> two_digits (hex b) b) /\
  (forall b0 b1 b2 b3 b4 b5, mac_text [b0; b1; b2; b3; b4; b5] =
     hex b0 ++ str ":" ++ hex b1 ++ str ":" ++ hex b2 ++ str ":" ++ hex b3 ++ str ":" ++ hex b4 ++ str ":" ++ hex b5) /\
  (forall name key, peer_text (Some (Some name, key)) = str "<" ++ name ++ str ">") /\
  (forall key, (8 <= List.length key)%nat -> peer_text (Some (None, Some key)) = str "{" ++ flat_map hex (firstn 8 key) ++ str "}") /\
  peer_text None = str "(null)" /\
  (forall l c r, fetch l c 115 (VlStr None :: r) = text1 (str "(null)") r /\ fetch l c 69 (VlMac None :: r) = text1 (str "(null)") r).
Proof.
  split; [exact dec_decimal|]. split; [|split; [|split; [exact hex_two|split; [reflexivity|split; [reflexivity|split; [|split; [reflexivity|split; reflexivity]]]]]]].
  - intros z H. unfold zdec. replace (z <? 0)%Z with false by (symmetry; apply Z.ltb_ge; exact H). apply dec_decimal.
  - intros z H. unfold zdec. replace (z <? 0)%Z with true by (symmetry; apply Z.ltb_lt; exact H). eexists. split; [reflexivity | apply dec_decimal].
  - intros key H. do 8 (destruct key as [|? key]; [cbn [List.length] in H; lia|]). reflexivity.
Qed.
