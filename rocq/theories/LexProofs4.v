(** The whole lexer *)
From Verif Require Import Base BufferModel LexModel LexSpec LexProofs LexProofs2 LexProofs3.
Local Open Scope nat_scope.

Definition is_end (l : lexeme) : bool := match l with LEof | LError _ => true | _ => false end.

Section Lexer.
Variables pton4 pton6 : bytes -> option bytes.
Hypothesis H4 : forall a : bytes, 15 < length a -> pton4 a = None.
Hypothesis H6 : forall a : bytes, 45 < length a -> pton6 a = None.

Notation spec_lex := (spec_lex pton4 pton6).
Notation spec_piece := (spec_piece pton4 pton6).

Definition outcome (fail need : bool) (p : pos) (s : bytes) (x' : lexst) (l : lexeme) : Prop :=
  if is_end l then forall k, length s < k -> map (observe fail) (spec_lex k fail need p s) = [observe fail (l, nopos, nopos)]
  else
    (exists need' p' f' s', length s' < length s /\ view fail need' p' f' x' [] s' /\
       forall k, length s < k -> exists k', length s' < k' /\ spec_lex k fail need p s = (l, f', p') :: spec_lex k' fail need' p' s') \/
    (1 <= length s /\ exists p' f', (x_line x', x_col x') = p' /\ (x_fline x', x_fcol x') = f' /\ x_end x' <= x_start x' /\ x_ferr x' = false /\
       forall k, length s < k -> spec_lex k fail need p s = [(l, f', p'); (LEof, nopos, nopos)]).

Lemma skipn_shorter {A} n (s : list A) : 1 <= n -> s <> [] -> length (skipn n s) < length s.
Proof. intros Hn Hs. rewrite skipn_length. destruct s; [congruence|]. cbn [length]. lia. Qed.

Lemma outcome_skip fail need p c r n x' l : spec_piece need (c :: r) = PSkip n -> 1 <= n ->
  outcome fail false (adv p (firstn n (c :: r))) (skipn n (c :: r)) x' l -> outcome fail need p (c :: r) x' l.
Proof.
  intros E Hn. pose proof (skipn_shorter n (c :: r) Hn ltac:(discriminate)) as Ls. unfold outcome.
  assert (U : forall k, length (c :: r) < k -> exists k', length (skipn n (c :: r)) < k' /\
    spec_lex k fail need p (c :: r) = spec_lex k' fail false (adv p (firstn n (c :: r))) (skipn n (c :: r))).
  { intros k Hk. destruct k as [|k]; [lia|]. exists k. split; [lia|]. cbn [LexSpec.spec_lex]. rewrite E. reflexivity. }
  destruct (is_end l).
  - intros H k Hk. destruct (U k Hk) as (k' & Hk' & ->). apply H. exact Hk'.
  - intros [(need' & p' & f' & s' & L' & V & H)|(L1 & p' & f' & P' & F' & L' & Fe & H)].
    + left. exists need', p', f', s'. split; [lia|]. split; [exact V|]. intros k Hk. destruct (U k Hk) as (k' & Hk' & ->). apply H. exact Hk'.
    + right. split; [cbn; lia|]. exists p', f'. do 4 (split; [assumption|]). intros k Hk. destruct (U k Hk) as (k' & Hk' & ->). apply H. exact Hk'.
Qed.

Lemma outcome_fail fail need p c r x e : spec_piece need (c :: r) = PFail e -> calm fail x ->
  exists x' l, Ok (lex_fail e x) = Ok (x', l) /\ outcome fail need p (c :: r) x' l.
Proof.
  intros E C. exists x, (LError (if x_ferr x then E_io else e)). split; [reflexivity|]. unfold outcome. cbn [is_end].
  intros k Hk. destruct k as [|k]; [lia|]. cbn [LexSpec.spec_lex]. rewrite E. cbn. do 4 f_equal.
  destruct (x_ferr x) eqn:Ex; [rewrite (C Ex); reflexivity | reflexivity].
Qed.

Lemma outcome_matches fail need p c r R pc : spec_piece need (c :: r) = pc ->
  matches fail p (fst p, (snd p + 1)%N) (c :: r) R pc ->
  match pc with PTok l n _ _ => 1 <= n /\ is_end l = false | _ => True end ->
  exists x' l, R = Ok (x', l) /\ outcome fail need p (c :: r) x' l.
Proof.
  intros E M Hn. destruct pc as [n|l n need' last|e]; cbn in M; [contradiction| |].
  - destruct Hn as [Hn He]. pose proof (skipn_shorter n (c :: r) Hn ltac:(discriminate)) as Ls. destruct last.
    + destruct M as (x' & -> & L & Fe & P & F). exists x', l. split; [reflexivity|]. unfold outcome. rewrite He. right. split; [cbn; lia|].
      eexists _, _. split; [exact P|]. split; [exact F|]. split; [exact L|]. split; [exact Fe|].
      intros k Hk. destruct k as [|k]; [lia|]. cbn [LexSpec.spec_lex]. rewrite E. reflexivity.
    + destruct M as (x' & -> & V). exists x', l. split; [reflexivity|]. unfold outcome. rewrite He. left.
      eexists need', _, _, _. split; [exact Ls|]. split; [exact V|]. intros k Hk. destruct k as [|k]; [lia|]. exists k. split; [lia|].
      cbn [LexSpec.spec_lex]. rewrite E. reflexivity.
  - destruct M as (x & -> & C). apply outcome_fail; assumption.
Qed.

Lemma lex_view fail : forall fuel need p f x s, view fail need p f x [] s -> length s < fuel ->
  exists x' l, lex pton4 pton6 fuel x = Ok (x', l) /\ outcome fail need p s x' l.
Proof.
  induction fuel as [|fuel IH]; intros need p f x s V Hf; [lia|]. pose proof bufsize_big as B.
  cbn [lex]. pose proof (v_pre _ _ _ _ _ _ _ V) as P. destruct (pre_data _ _ _ _ _ _ _ P) as (dd & Ed & Es & El). unfold x_end. cbn [length] in El.
  destruct s as [|c r].
  - destruct dd; [|discriminate]. cbn [length] in El. destruct (Nat.ltb_spec (x_start x) (length (x_data x))); [lia|].
    exists x, (if x_ferr x then LError E_io else LEof). split; [reflexivity|].
    rewrite (v_eof _ _ _ _ _ _ _ V eq_refl ltac:(cbn; lia)). unfold outcome.
    destruct fail; cbn [is_end]; intros k Hk; (destruct k as [|k]; [cbn in Hk; lia|]); reflexivity.
  - destruct (v_live _ _ _ _ _ _ _ V) as [H|[H|H]]; [discriminate | cbn in H; lia|]. cbn [length] in H.
    destruct (Nat.ltb_spec (x_start x) (length (x_data x))) as [_|]; [|lia].
    pose proof (first_view _ _ _ _ _ _ (x_line x) (x_col x + 1)%N V) as V0.
    match goal with |- context [current ?y] => set (x0 := y) in * end. clearbody x0.
    assert (Ef : (x_line x, (x_col x + 1)%N) = (fst p, (snd p + 1)%N)) by (rewrite <- (v_pos _ _ _ _ _ _ _ P); reflexivity).
    rewrite Ef in V0. clear Ef.
    rewrite (current_view0 _ _ _ _ _ _ _ V0). cbn [bind]. cbn [length] in Hf.
    assert (Sp : (c =? 32)%N || (c =? 10)%N || (c =? 9)%N || (c =? 13)%N = is_space c) by (unfold is_space; cbn [existsb]; rewrite orb_false_r, !orb_assoc; reflexivity).
    assert (Pu : (c =? 59)%N || (c =? 58)%N || (c =? 123)%N || (c =? 125)%N = is_punct c) by (unfold is_punct; cbn [existsb]; rewrite orb_false_r, !orb_assoc; reflexivity).
    rewrite Sp, Pu. clear Sp Pu.
    assert (Skip : forall n x1 need1 f1, spec_piece need (c :: r) = PSkip n -> 1 <= n -> view fail need1 (adv p (firstn n (c :: r))) f1 x1 [] (skipn n (c :: r)) ->
      need1 = false -> exists x' l, lex pton4 pton6 fuel x1 = Ok (x', l) /\ outcome fail need p (c :: r) x' l).
    { intros n x1 need1 f1 Hs Hn V1 ->. pose proof (skipn_shorter n (c :: r) Hn ltac:(discriminate)) as Ls. cbn [length] in Ls.
      destruct (IH _ _ _ _ _ V1) as (x' & l & E & O); [unfold bytes, byte in *; lia|]. exists x', l. split; [exact E|]. eapply outcome_skip; eauto. }
    destruct (is_space c) eqn:Hsp.
    { destruct (next_view _ _ _ _ _ _ _ V0) as (x1 & E1 & V1). rewrite E1. cbn [bind].
      eapply (Skip 1); [cbn [LexSpec.spec_piece]; rewrite Hsp; reflexivity | lia | | reflexivity].
      cbn [firstn skipn]. rewrite adv_one. apply consume_view with (need := need) (t := []); [exact V1 | cbn; lia]. }
    destruct (is_punct c) eqn:Hpu.
    { destruct (next_view _ _ _ _ _ _ _ V0) as (x1 & E1 & V1). rewrite E1. cbn [bind].
      eapply outcome_matches; [cbn [LexSpec.spec_piece]; rewrite Hsp, Hpu; reflexivity | | split; [lia | reflexivity]].
      eexists. split; [reflexivity|]. cbn [firstn skipn]. rewrite adv_one. apply consume_view with (need := need) (t := []); [exact V1 | cbn; lia]. }
    destruct (N.eqb_spec c 47) as [->|H47].
    { destruct (next_view _ _ _ _ _ _ _ V0) as (x1 & E1 & V1). rewrite E1. cbn [bind].
      destruct r as [|d r]; cbn [is_nil negb]; [apply outcome_fail; [reflexivity | exact (view_calm _ _ _ _ _ _ _ V1)]|].
      rewrite (current_view0 _ _ _ _ _ _ _ V1). cbn [bind].
      destruct (N.eqb_spec d 42) as [->|H42].
      - pose proof (comment_view fail _ (fuel_of x1) need _ x1 0%N 42%N r V1) as C. rewrite <- comment_len_cl0 in C.
        assert (Hfx : length r < fuel_of x1) by (pose proof (fuel_view _ _ _ _ _ _ _ V1) as Hx; cbn [length] in Hx; unfold byte in *; lia). specialize (C Hfx).
        destruct (comment_len r) as [n|] eqn:Ec.
        + destruct C as (x2 & E2 & V2). rewrite E2. cbn [bind]. eapply (Skip (2 + n)); [cbn [LexSpec.spec_piece]; change (is_space 47%N) with false; change (is_punct 47%N) with false; cbn -[comment_len Nat.add]; rewrite Ec; reflexivity | lia | | reflexivity].
          exact V2.
        + destruct C as (x2 & E2 & C2). rewrite E2. cbn [bind]. apply outcome_fail; [|exact C2].
          cbn [LexSpec.spec_piece]. change (is_space 47%N) with false; change (is_punct 47%N) with false; cbn -[comment_len Nat.add]; rewrite Ec; reflexivity.
      - destruct (N.eqb_spec d 47) as [->|H47'].
        + destruct (line_comment_view _ _ _ _ _ _ _ V1) as (x2 & E2 & V2). rewrite E2. cbn [bind].
          eapply (Skip (2 + line_len r)); [reflexivity | lia | exact V2 | reflexivity].
        + apply outcome_fail; [|exact (view_calm _ _ _ _ _ _ _ V1)].
          cbn [LexSpec.spec_piece]. change (is_space 47%N) with false; change (is_punct 47%N) with false. change ((47 =? 35)%N) with false. change ((47 =? 47)%N) with true. cbv iota.
          rewrite (proj2 (N.eqb_neq d 42) H42), (proj2 (N.eqb_neq d 47) H47'). reflexivity. }
    destruct (N.eqb_spec c 35) as [->|H35].
    { destruct (line_comment_view _ _ _ _ _ _ _ V0) as (x2 & E2 & V2). rewrite E2. cbn [bind].
      eapply (Skip (1 + line_len r)); [reflexivity | lia | exact V2 | reflexivity]. }
    assert (Sc : spec_piece need (c :: r) = if need then PFail E_syntax else if (c =? 34)%N then spec_string r else if (c =? 91)%N then spec_addr6 pton6 r
      else if is_digit c then spec_number pton4 (c :: r) else if is_lower c then spec_keyword (c :: r) else PFail E_syntax).
    { cbn [LexSpec.spec_piece]. rewrite Hsp, Hpu, (proj2 (N.eqb_neq c 35) H35), (proj2 (N.eqb_neq c 47) H47). reflexivity. }
    destruct need.
    { assert (G : exists x' l, Ok (lex_fail E_syntax x0) = Ok (x', l) /\ outcome fail true p (c :: r) x' l) by (apply outcome_fail; [exact Sc | exact (view_calm _ _ _ _ _ _ _ V0)]).
      unfold parse_string, parse_ipv6_address, parse_number, parse_keyword. rewrite (v_need _ _ _ _ _ _ _ (v_pre _ _ _ _ _ _ _ V0)).
      destruct (c =? 34)%N; [exact G|]. destruct (c =? 91)%N; [exact G|]. destruct (is_digit c); [exact G|]. destruct (is_lower c); exact G. }
    destruct (N.eqb_spec c 34) as [->|H34].
    { eapply outcome_matches; [exact Sc | apply parse_string_view; exact V0|]. unfold spec_string. destruct (unquote r) as [[v n]|]; [split; [lia | reflexivity] | exact I]. }
    destruct (N.eqb_spec c 91) as [->|H91].
    { eapply outcome_matches; [exact Sc | apply parse_addr6_view with (pton4 := pton4); assumption|]. unfold spec_addr6.
      destruct (skipn _ r) as [|t q]; [exact I|]. destruct (t =? 93)%N; [destruct (pton6 _); [split; [lia | reflexivity] | exact I]|].
      destruct (t =? 37)%N; [|exact I]. destruct (pton6 _); [|exact I]. destruct (unquote_name q) as [[name n]|]; [|exact I].
      destruct (Nat.ltb _ ifnamsiz); [split; [lia | reflexivity] | exact I]. }
    destruct (is_digit c) eqn:Hd.
    { eapply outcome_matches; [exact Sc | apply parse_number_view with (pton6 := pton6); assumption|]. unfold spec_number.
      destruct (_ && _).
      - destruct (pton4 _); [|exact I]. cbn [take_while]. unfold is_addr4 at 1. rewrite Hd. cbn [orb length]. split; [lia | reflexivity].
      - destruct (number _); [|exact I]. cbn [take_while]. unfold is_alnum at 1. rewrite Hd. cbn [orb]. destruct bufsize eqn:Eb; [lia|]. cbn [firstn length]. split; [lia | reflexivity]. }
    destruct (is_lower c) eqn:Hl.
    { assert (Hk : is_kw c = true) by (unfold is_kw; rewrite Hl; reflexivity).
      eapply outcome_matches; [exact Sc | apply parse_keyword_view; [exact V0 | exact Hk]|]. unfold spec_keyword. destruct (in_dec _ _ _); [|exact I].
      cbn [take_while]. rewrite Hk. cbn [length]. split; [lia | reflexivity]. }
    apply outcome_fail; [exact Sc | exact (view_calm _ _ _ _ _ _ _ V0)].
Qed.

Lemma lex_all_view fail : forall fuel need p f x s k, view fail need p f x [] s -> length s < fuel -> length s < k ->
  exists r, lex_all pton4 pton6 fuel x = Ok r /\ map (observe fail) r = map (observe fail) (spec_lex k fail need p s).
Proof.
  induction fuel as [|fuel IH]; intros need p f x s k V Hf Hk; [lia|]. cbn [lex_all].
  destruct (lex_view fail (fuel_of x) need p f x s V (fuel_view _ _ _ _ _ _ _ V)) as (x' & l & E & O). rewrite E. cbn [bind].
  unfold outcome in O. destruct (is_end l) eqn:He.
  - specialize (O k Hk). exists [(l, (x_fline x', x_fcol x'), (x_line x', x_col x'))]. split; [destruct l; try discriminate; reflexivity|].
    rewrite O. destruct l; try discriminate; reflexivity.
  - assert (Ob : forall a b, observe fail (l, a, b) = (l, a, b)) by (destruct l; try discriminate; reflexivity).
    assert (Em : forall r0, lex_all pton4 pton6 fuel x' = Ok r0 -> (match l with LEof | LError _ => Ok [(l, (x_fline x', x_fcol x'), (x_line x', x_col x'))] | _ => do r <- lex_all pton4 pton6 fuel x'; Ok ((l, (x_fline x', x_fcol x'), (x_line x', x_col x')) :: r) end)
      = Ok ((l, (x_fline x', x_fcol x'), (x_line x', x_col x')) :: r0)) by (intros r0 ->; destruct l; try discriminate; reflexivity).
    destruct O as [(need' & p' & f' & s' & Ls & V' & O)|(L1 & p' & f' & P' & F' & L' & Fe & O)].
    + destruct (O k Hk) as (k' & Hk' & ->). destruct (IH need' p' f' x' s' k' V' ltac:(lia) Hk') as (r0 & E0 & Er).
      eexists. split; [apply Em; exact E0|]. cbn [map]. rewrite Er, !Ob. f_equal.
      rewrite (v_first _ _ _ _ _ _ _ (v_pre _ _ _ _ _ _ _ V')), (v_pos _ _ _ _ _ _ _ (v_pre _ _ _ _ _ _ _ V')). reflexivity.
    + assert (E0 : exists q1 q2, lex_all pton4 pton6 fuel x' = Ok [(LEof, q1, q2)]).
      { destruct fuel as [|fuel]; [lia|]. cbn [lex_all]. unfold fuel_of. cbn [lex]. destruct (Nat.ltb_spec (x_start x') (x_end x')); [lia|]. rewrite Fe. cbn [bind]. eexists _, _. reflexivity. }
      destruct E0 as (q1 & q2 & E0). eexists. split; [apply Em; exact E0|]. rewrite (O k Hk). cbn [map]. rewrite !Ob, P', F'. reflexivity.
Qed.

Lemma lex_file_exact s sched fail :
  exists r, lex_file pton4 pton6 s sched fail = Ok r /\ map (observe fail) r = map (observe fail) (spec_file pton4 pton6 fail s).
Proof.
  unfold lex_file, spec_file. pose proof (init_view s sched fail) as V. apply (lex_all_view fail _ _ _ _ _ _ (S (length s)) V); [exact (fuel_view _ _ _ _ _ _ _ V) | lia].
Qed.
End Lexer.
