(** IPv6 addresses and the whole lexer *)
From Verif Require Import Base BufferModel LexModel LexSpec LexProofs LexProofs2.
Local Open Scope nat_scope.

Lemma addr6_view fail f : forall fuel need p x t c s, view fail need p f x t (c :: s) -> length t < bufsize -> length s < fuel ->
  let u := take_while is_addr6 s in
  match skipn (length u) s with
  | d :: r =>
    if Nat.ltb (length t + 1 + length u) bufsize
    then exists x', addr6_loop fuel x = Ok (x', true) /\ view fail need (adv p (c :: u)) f x' (t ++ c :: u) (d :: r)
    else exists x', addr6_loop fuel x = Ok (x', false) /\ calm fail x'
  | [] => exists x', addr6_loop fuel x = Ok (x', false) /\ calm fail x'
  end.
Proof.
  induction fuel as [|fuel IH]; intros need p x t c s V Lt Hf; [lia|]. cbv zeta.
  destruct (next_view_tok _ _ _ _ _ _ _ _ V Lt) as (x1 & E1 & V1). cbn [addr6_loop]. rewrite E1. cbn [bind].
  destruct s as [|d s]; cbn [is_nil negb andb take_while length skipn].
  - exists x1. split; [reflexivity | exact (view_calm _ _ _ _ _ _ _ V1)].
  - destruct (Nat.ltb_spec (S (length t)) bufsize) as [Hl|Hl]; cbn [negb].
    + rewrite (current_view _ _ _ _ _ _ _ _ V1) by (rewrite app_length; cbn; lia). cbn [bind].
      destruct (is_addr6 d).
      * cbn [length skipn]. cbn in Hf. specialize (IH need _ x1 (t ++ [c]) d s V1 ltac:(rewrite app_length; cbn; lia) ltac:(lia)).
        cbv zeta in IH. destruct (skipn (length (take_while is_addr6 s)) s) as [|e r]; [exact IH|].
        rewrite app_length in IH. cbn [length] in IH. replace (length t + 1 + S (length (take_while is_addr6 s))) with (length t + 1 + 1 + length (take_while is_addr6 s)) by lia.
        destruct (Nat.ltb _ bufsize); [|exact IH]. destruct IH as (x' & E & V'). exists x'. split; [exact E|]. rewrite <- app_assoc in V'. exact V'.
      * cbn [length skipn]. destruct (Nat.ltb_spec (length t + 1 + 0) bufsize); [|lia]. exists x1. split; [reflexivity | exact V1].
    + assert (G : exists x', Ok (x1, false) = Ok (x', false) /\ calm fail x') by (exists x1; split; [reflexivity | exact (view_calm _ _ _ _ _ _ _ V1)]).
      destruct (is_addr6 d); cbn [length skipn].
      * destruct (skipn (length (take_while is_addr6 s)) s); [exact G|]. destruct (Nat.ltb_spec (length t + 1 + S (length (take_while is_addr6 s))) bufsize); [lia | exact G].
      * destruct (Nat.ltb_spec (length t + 1 + 0) bufsize); [lia | exact G].
Qed.

Lemma ifname_view fail f : forall fuel need p x c s name, view fail need p f x [] (c :: s) -> length s < fuel -> length name < ifnamsiz ->
  match unquote_name s with
  | Some (v, n) =>
    if Nat.ltb (length name + length v) ifnamsiz
    then exists x' b r, ifname_loop fuel name x = Ok (x', Some (name ++ v)) /\ s = b ++ 93%N :: r /\ n = S (length b) /\
      view fail need (adv p (c :: b)) f x' [] (93%N :: r)
    else exists x', ifname_loop fuel name x = Ok (x', None) /\ calm fail x'
  | None => exists x', ifname_loop fuel name x = Ok (x', None) /\ calm fail x'
  end.
Proof.
  induction fuel as [|fuel IH]; intros need p x c s name V Hf Hn; [lia|].
  destruct (next_view _ _ _ _ _ _ _ V) as (x1 & E1 & V1). cbn [ifname_loop]. rewrite E1. cbn [bind].
  destruct s as [|d s]; cbn [is_nil negb unquote_name]; [exists x1; split; [reflexivity | exact (view_calm _ _ _ _ _ _ _ V1)]|].
  rewrite (current_view0 _ _ _ _ _ _ _ V1). cbn [bind].
  destruct (N.eqb_spec d 93) as [->|H93].
  - cbn [length]. destruct (Nat.ltb_spec (length name + 0) ifnamsiz); [|lia]. exists x1, [], s. rewrite app_nil_r.
    split; [reflexivity|]. split; [reflexivity|]. split; [reflexivity | exact V1].
  - assert (Step : forall x2 p2 e s2, view fail need p2 f x2 [] (e :: s2) -> length s2 < fuel ->
      match unquote_name s2 with
      | Some (v, n) =>
        if Nat.ltb (length name + length (e :: v)) ifnamsiz
        then exists x' b r, (if Nat.eqb (length name) (ifnamsiz - 1) then Ok (x2, None)
          else if Nat.ltb (length name) ifnamsiz then ifname_loop fuel (name ++ [e]) x2 else UB) = Ok (x', Some (name ++ e :: v)) /\ s2 = b ++ 93%N :: r /\ n = S (length b) /\
          view fail need (adv p2 (e :: b)) f x' [] (93%N :: r)
        else exists x', (if Nat.eqb (length name) (ifnamsiz - 1) then Ok (x2, None)
          else if Nat.ltb (length name) ifnamsiz then ifname_loop fuel (name ++ [e]) x2 else UB) = Ok (x', None) /\ calm fail x'
      | None => exists x', (if Nat.eqb (length name) (ifnamsiz - 1) then Ok (x2, None)
          else if Nat.ltb (length name) ifnamsiz then ifname_loop fuel (name ++ [e]) x2 else UB) = Ok (x', None) /\ calm fail x'
      end).
    { intros x2 p2 e s2 V2 Hf2. destruct (Nat.eqb_spec (length name) (ifnamsiz - 1)) as [Hl|Hl].
      - assert (G : exists x', Ok (x2, @None bytes) = Ok (x', None) /\ calm fail x') by (exists x2; split; [reflexivity | exact (view_calm _ _ _ _ _ _ _ V2)]).
        destruct (unquote_name s2) as [[v n]|]; [|exact G]. destruct (Nat.ltb_spec (length name + length (e :: v)) ifnamsiz) as [Hx|]; [cbn [length] in Hx; lia | exact G].
      - destruct (Nat.ltb_spec (length name) ifnamsiz); [|lia].
        specialize (IH need p2 x2 e s2 (name ++ [e]) V2 Hf2 ltac:(rewrite app_length; cbn [length]; lia)).
        destruct (unquote_name s2) as [[v n]|]; [|exact IH].
        rewrite app_length in IH. cbn [length] in *. replace (length name + S (length v)) with (length name + 1 + length v) by lia.
        destruct (Nat.ltb _ ifnamsiz); [|exact IH]. rewrite <- app_assoc in IH. exact IH. }
    destruct (N.eqb_spec d 92) as [->|H92].
    + destruct (next_view _ _ _ _ _ _ _ V1) as (x2 & E2 & V2). rewrite E2. cbn [bind].
      destruct s as [|e s]; cbn [is_nil negb]; [exists x2; split; [reflexivity | exact (view_calm _ _ _ _ _ _ _ V2)]|].
      rewrite (current_view0 _ _ _ _ _ _ _ V2). cbn [bind]. cbn in Hf.
      specialize (Step x2 _ e s V2 ltac:(lia)). destruct (unquote_name s) as [[v n]|]; [|exact Step].
      destruct (Nat.ltb _ ifnamsiz); [|exact Step]. destruct Step as (x' & b & r & E & Es & En & V').
      exists x', (92%N :: e :: b), r. subst s n. split; [exact E|]. split; [reflexivity|]. split; [reflexivity | exact V'].
    + cbn [bind]. cbn in Hf. specialize (Step x1 _ d s V1 ltac:(lia)). destruct (unquote_name s) as [[v n]|]; [|exact Step].
      destruct (Nat.ltb _ ifnamsiz); [|exact Step]. destruct Step as (x' & b & r & E & Es & En & V').
      exists x', (d :: b), r. subst s n. split; [exact E|]. split; [reflexivity|]. split; [reflexivity | exact V'].
Qed.

Lemma overwrite_mid (a : bytes) c d z : overwrite (a ++ c :: d) (length a) [z] = a ++ z :: d.
Proof.
  unfold overwrite. rewrite Nat.add_comm. cbn [length Nat.add app]. rewrite skipn_mid. f_equal.
  rewrite firstn_app, firstn_all, Nat.sub_diag. apply app_nil_r.
Qed.

(** Writing the NUL *)
Lemma poke_view fail need p f x h a c s : view fail need p f x (h :: a) (c :: s) -> S (length a) < bufsize -> ~ In 0%N a ->
  exists x', poke (x_start x + x_tok x) 0%N x = Ok x' /\ view fail need p f x' (h :: a) (0%N :: s) /\
    cstr (skipn (x_start x' + 1) (x_data x')) = a.
Proof.
  intros V Lt Nz. pose proof (v_pre _ _ _ _ _ _ _ V) as P. destruct (pre_data _ _ _ _ _ _ _ P) as (d & Ed & Es & El).
  assert (Hlive : x_start x + length (h :: a) < length (x_data x)) by (destruct (v_live _ _ _ _ _ _ _ V) as [H|[H|H]]; [discriminate | cbn in H; lia | exact H]).
  destruct d as [|c' d]; [cbn [length] in *; lia|]. injection Es as <- Es.
  set (pre0 := firstn (x_start x) (x_data x)).
  assert (Lp : length pre0 = x_start x) by (unfold pre0; rewrite firstn_length; lia).
  assert (Ex : x_data x = pre0 ++ (h :: a) ++ c :: d) by (unfold pre0; rewrite <- Ed; symmetry; apply firstn_skipn). clearbody pre0.
  assert (Eo : overwrite (x_data x) (x_start x + length (h :: a)) [0%N] = pre0 ++ (h :: a) ++ 0%N :: d).
  { rewrite Ex, <- Lp, <- app_length, !app_assoc. apply overwrite_mid. }
  assert (Es1 : skipn (x_start x) (pre0 ++ (h :: a) ++ 0%N :: d) = (h :: a) ++ 0%N :: d) by (rewrite <- Lp, skipn_app, skipn_all, Nat.sub_diag; reflexivity).
  assert (Le : length (pre0 ++ (h :: a) ++ 0%N :: d) = length (x_data x)) by (rewrite Ex, !app_length; reflexivity).
  unfold poke, x_end. rewrite (v_tok _ _ _ _ _ _ _ P). destruct (Nat.ltb_spec (x_start x + length (h :: a)) (length (x_data x))); [|lia].
  unfold bytes, byte in *. rewrite Eo. eexists. split; [reflexivity|]. split.
  - split; [split|..]; cbn [x_data x_start x_tok x_need x_rest x_sched x_fail x_ferr x_line x_col x_fline x_fcol]; try apply P; try reflexivity; unfold bytes, byte in *.
    + rewrite Es1, Es, <- app_assoc. reflexivity.
    + rewrite Le. apply P.
    + rewrite Le. apply P.
    + rewrite Le. apply P.
    + rewrite Le. right; right. exact Hlive.
    + discriminate.
  - cbn [x_data x_start]. unfold bytes, byte in *. rewrite skipn_add, Es1. cbn [app skipn]. clear -Nz. induction a as [|b a IH]; cbn; [reflexivity|].
    destruct (N.eqb_spec b 0) as [->|]; [exfalso; apply Nz; left; reflexivity|]. f_equal. apply IH. intros H. apply Nz. right. exact H.
Qed.

Lemma addr6_nonzero s : ~ In 0%N (take_while is_addr6 s).
Proof. induction s as [|c s IH]; cbn; [auto|]. destruct (is_addr6 c) eqn:E; [|auto]. intros [->|H]; [discriminate | auto]. Qed.

Lemma firstn_mid2 {A} (u : list A) t r n : firstn (S (length u) + n) (u ++ t :: r) = u ++ t :: firstn n r.
Proof. induction u as [|a u IH]; [reflexivity|]. change (firstn (S (length (a :: u)) + n) ((a :: u) ++ t :: r)) with (a :: firstn (S (length u) + n) (u ++ t :: r)). rewrite IH. reflexivity. Qed.
Lemma skipn_mid2 {A} (u : list A) t r n : skipn (S (length u) + n) (u ++ t :: r) = skipn n r.
Proof. induction u as [|a u IH]; [reflexivity|]. exact IH. Qed.

Section Lexer.
Variables pton4 pton6 : bytes -> option bytes.
Hypothesis H4 : forall a : bytes, 15 < length a -> pton4 a = None.
Hypothesis H6 : forall a : bytes, 45 < length a -> pton6 a = None.

Lemma parse_addr6_view fail p f x (s : bytes) : view fail false p f x [] (91%N :: s) ->
  matches fail p f (91%N :: s) (parse_ipv6_address pton6 x) (spec_addr6 pton6 s).
Proof.
  intros V. pose proof bufsize_big as B. unfold parse_ipv6_address. rewrite (v_need _ _ _ _ _ _ _ (v_pre _ _ _ _ _ _ _ V)).
  assert (Hf : length s < fuel_of x) by (pose proof (fuel_view _ _ _ _ _ _ _ V) as H; cbn [length] in H; unfold byte in *; lia).
  pose proof (addr6_view fail f (fuel_of x) false p x [] 91%N s V ltac:(cbn; lia) Hf) as H. cbv zeta in H. cbn [length app] in H.
  unfold spec_addr6. pose proof (addr6_nonzero s) as Nz. pose proof (take_while_firstn is_addr6 s) as Tw.
  set (u := take_while is_addr6 s) in *. clearbody u.
  destruct (skipn (length u) s) as [|t r] eqn:Er.
  { destruct H as (x1 & E & C). rewrite E. cbn [bind negb]. exists x1. split; [reflexivity | exact C]. }
  assert (Es : s = u ++ t :: r) by (rewrite <- (firstn_skipn (length u) s), Er, Tw; reflexivity).
  destruct (Nat.ltb_spec (0 + 1 + length u) bufsize) as [Hl|Hl].
  2:{ destruct H as (x1 & E & C). rewrite E. cbn [bind negb]. rewrite H6 by lia.
      assert (G : matches fail p f (91%N :: s) (Ok (lex_fail E_syntax x1)) (PFail E_syntax)) by (exists x1; split; [reflexivity | exact C]).
      destruct (t =? 93)%N; [exact G|]. destruct (t =? 37)%N; exact G. }
  destruct H as (x1 & E & V1). rewrite E. cbn [bind negb].
  rewrite (current_view _ _ _ _ _ _ _ _ V1) by (cbn; lia). cbn [bind].
  assert (F1 : forall n, firstn (2 + length u + n) (91%N :: s) = 91%N :: u ++ t :: firstn n r).
  { intros n. change (firstn (2 + length u + n) (91%N :: s)) with (91%N :: firstn (S (length u) + n) s). rewrite Es, firstn_mid2. reflexivity. }
  assert (F2 : forall n, skipn (2 + length u + n) (91%N :: s) = skipn n r).
  { intros n. change (skipn (2 + length u + n) (91%N :: s)) with (skipn (S (length u) + n) s). rewrite Es, skipn_mid2. reflexivity. }
  destruct (N.eqb_spec t 93) as [->|H93].
  - cbn [N.eqb Pos.eqb orb]. change ((93 =? 37)%N) with false. cbv iota. cbn [orb].
    destruct (poke_view _ _ _ _ _ _ _ _ _ V1 ltac:(lia) Nz) as (x2 & E2 & V2 & C2). rewrite E2. cbn [bind]. rewrite C2.
    destruct (pton6 u) as [v|]; [|exists x2; split; [reflexivity | exact (view_calm _ _ _ _ _ _ _ V2)]].
    destruct (next_view_move _ _ _ _ _ _ _ _ V2 ltac:(cbn; lia)) as (x3 & E3 & V3). rewrite E3. cbn [bind].
    eexists. split; [reflexivity|]. specialize (F1 0). specialize (F2 0). rewrite Nat.add_0_r in F1, F2. unfold bytes, byte in *. rewrite F1, F2.
    cbn [firstn skipn]. apply consume_view with (need := false) (t := tl ((91%N :: u) ++ [0%N])); [|cbn [tl app]; rewrite app_length; cbn [length]; lia].
    change (91%N :: u ++ [93%N]) with ((91%N :: u) ++ [93%N]). rewrite adv_app. exact V3.
  - destruct (N.eqb_spec t 37) as [->|H37]; cbn [orb].
    2:{ exists x1. split; [reflexivity | exact (view_calm _ _ _ _ _ _ _ V1)]. }
    destruct (poke_view _ _ _ _ _ _ _ _ _ V1 ltac:(lia) Nz) as (x2 & E2 & V2 & C2). rewrite E2. cbn [bind]. rewrite C2.
    destruct (pton6 u) as [v|]; [|exists x2; split; [reflexivity | exact (view_calm _ _ _ _ _ _ _ V2)]].
    assert (V3 : view fail false (adv p (91%N :: u)) f (consume false x2) [] (0%N :: r)) by (apply consume_view with (need := false) (t := 91%N :: u); [exact V2 | cbn [length]; lia]).
    assert (Hf3 : length r < fuel_of (consume false x2)) by (pose proof (fuel_view _ _ _ _ _ _ _ V3) as Hx; cbn [length] in Hx; unfold byte in *; lia).
    pose proof (ifname_view fail f (fuel_of (consume false x2)) false _ (consume false x2) 0%N r [] V3 Hf3 ltac:(unfold ifnamsiz; cbn; lia)) as H.
    cbv zeta. destruct (unquote_name r) as [[name n]|].
    + cbn [length Nat.add app] in H. destruct (Nat.ltb (length name) ifnamsiz).
      * destruct H as (x4 & b & q & E4 & Eq & En & V4). rewrite E4. cbn [bind].
        destruct (next_view _ _ _ _ _ _ _ V4) as (x5 & E5 & V5). rewrite E5. cbn [bind].
        eexists. split; [reflexivity|]. unfold bytes, byte in *. rewrite F1, F2. rewrite Eq, En, firstn_mid, skipn_mid.
        apply consume_view with (need := false) (t := []); [|cbn; lia].
        assert (Ea : adv p (91%N :: u ++ 37%N :: b ++ [93%N]) = adv1 (adv (adv p (91%N :: u)) (0%N :: b)) 93%N).
        { change (91%N :: u ++ 37%N :: b ++ [93%N]) with ((91%N :: u) ++ (37%N :: b) ++ [93%N]). rewrite !adv_app, adv_one. f_equal. }
        unfold bytes, byte in *. rewrite Ea. exact V5.
      * destruct H as (x4 & E4 & C4). rewrite E4. cbn [bind]. exists x4. split; [reflexivity | exact C4].
    + destruct H as (x4 & E4 & C4). rewrite E4. cbn [bind]. exists x4. split; [reflexivity | exact C4].
Qed.
End Lexer.
