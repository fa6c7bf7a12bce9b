(** Consequences for files *)
From Verif Require Import Base BufferModel LexModel LexSpec LexProofs LexProofs4 LexProofs5.
Local Open Scope nat_scope.

Lemma observe_tokens r q : map (observe false) r = map (observe false) q -> tokens r = tokens q.
Proof.
  assert (E : forall r, tokens (map (observe false) r) = tokens r).
  { intros l. unfold tokens. rewrite map_map. apply map_ext. intros [[l0 a] b]. destruct l0; reflexivity. }
  intros H. rewrite <- E, H, E. reflexivity.
Qed.
Lemma observe_last fail r q l e : map (observe fail) r = map (observe fail) q -> tokens q = l ++ [LError e] -> exists l' e', tokens r = l' ++ [LError e'].
Proof.
  intros H E. destruct q as [|it q _] using rev_ind; [destruct l; discriminate|]. unfold tokens in E. rewrite map_app in E. apply app_inj_tail in E. destruct E as [_ E].
  destruct r as [|jt r _] using rev_ind; [rewrite map_app in H; destruct (map (observe fail) q); discriminate|].
  rewrite !map_app in H. apply app_inj_tail in H. destruct H as [_ H]. unfold tokens. rewrite map_app.
  destruct it as [[x a] b], jt as [[y a'] b']. cbn in E, H. subst x. destruct y; cbn in H; try discriminate. eexists _, _. reflexivity.
Qed.

Section Files.
Variables pton4 pton6 : bytes -> option bytes.
Hypothesis H4 : forall a : bytes, 15 < length a -> pton4 a = None.
Hypothesis H6 : forall a : bytes, 45 < length a -> pton6 a = None.

Lemma file_chunking s sched sched' fail : exists r r', lex_file pton4 pton6 s sched fail = Ok r /\ lex_file pton4 pton6 s sched' fail = Ok r' /\
  map (observe fail) r = map (observe fail) r'.
Proof.
  destruct (lex_file_exact pton4 pton6 H4 H6 s sched fail) as (r & E & M). destruct (lex_file_exact pton4 pton6 H4 H6 s sched' fail) as (r' & E' & M').
  exists r, r'. split; [exact E|]. split; [exact E'|]. rewrite M, M'. reflexivity.
Qed.

Lemma file_wellformed s sched l : lexes pton4 pton6 false s l -> exists r, lex_file pton4 pton6 s sched false = Ok r /\ tokens r = l ++ [LEof].
Proof.
  intros L. destruct (lex_file_exact pton4 pton6 H4 H6 s sched false) as (r & E & M). exists r. split; [exact E|].
  rewrite (observe_tokens _ _ M). apply (complete pton4 pton6 false s l L). lia.
Qed.

Lemma file_malformed s sched : no_long_number s -> (forall l, ~ lexes pton4 pton6 false s l) ->
  exists r l e, lex_file pton4 pton6 s sched false = Ok r /\ tokens r = l ++ [LError e].
Proof.
  intros NL NX. destruct (lex_file_exact pton4 pton6 H4 H6 s sched false) as (r & E & M).
  destruct (ends pton4 pton6 (S (length s)) false (1%N, 0%N) s ltac:(lia)) as (l & e & El & He).
  destruct e; try discriminate; exists r, l.
  - exfalso. apply (NX l). apply (sound pton4 pton6 (S (length s)) false (1%N, 0%N) s l); [lia | exact NL | exact El].
  - exists e. split; [exact E|]. rewrite (observe_tokens _ _ M). exact El.
Qed.

Lemma ends_fail : forall k need p s, length s < k -> no_long_number s -> exists l e, tokens (spec_lex pton4 pton6 k true need p s) = l ++ [LError e].
Proof.
  induction k as [|k IH]; intros need p s Hk NL; [lia|]. destruct s as [|c r]; [exists [], E_io; reflexivity|].
  cbn [spec_lex].
  assert (Suf : forall n, 1 <= n -> length (skipn n (c :: r)) < k /\ no_long_number (skipn n (c :: r))).
  { intros n Hn. split; [rewrite skipn_length; cbn [length] in *; lia|]. apply no_long_suffix with (a := firstn n (c :: r)). rewrite firstn_skipn. exact NL. }
  destruct (spec_piece pton4 pton6 need (c :: r)) as [n|t n need' last|e] eqn:Ep.
  - apply IH; apply Suf; exact (piece_skip_pos _ _ _ _ _ _ Ep).
  - destruct (piece_not_end _ _ _ _ _ _ _ _ _ Ep) as [He Hn]. destruct last; [exfalso; exact (piece_last _ _ _ _ _ _ _ _ NL Ep)|].
    destruct (Suf n Hn) as [S1 S2]. destruct (IH need' (adv p (firstn n (c :: r))) (skipn n (c :: r)) S1 S2) as (l & e & E). exists (t :: l), e.
    cbn [tokens map fst app]. f_equal. exact E.
  - exists [], e. reflexivity.
Qed.
Lemma file_read_error s sched : no_long_number s -> exists r l e, lex_file pton4 pton6 s sched true = Ok r /\ tokens r = l ++ [LError e].
Proof.
  intros NL. destruct (lex_file_exact pton4 pton6 H4 H6 s sched true) as (r & E & M).
  destruct (ends_fail (S (length s)) false (1%N, 0%N) s ltac:(lia) NL) as (l & e & El).
  destruct (observe_last _ _ _ _ _ M El) as (l' & e' & El'). exists r, l', e'. split; [exact E | exact El'].
Qed.

(** A number that fills the buffer *)
Lemma take_while_zeros n s : take_while is_alnum (repeat 48%N n ++ s) = repeat 48%N n ++ take_while is_alnum s.
Proof. induction n as [|n IH]; cbn; [reflexivity | f_equal; exact IH]. Qed.
Lemma take_while_zeros' n s : take_while is_digit (repeat 48%N n ++ s) = repeat 48%N n ++ take_while is_digit s.
Proof. induction n as [|n IH]; cbn; [reflexivity | f_equal; exact IH]. Qed.
Lemma number_zeros n : 0 < n -> number (repeat 48%N n) = Some 0%N.
Proof.
  assert (F : forall base n, (1 < base)%N -> digits_val base (repeat 48%N n) = Some 0%N).
  { intros base m Hb. unfold digits_val.
    assert (A : forallb (fun c => (digit_val c <? base)%N) (repeat 48%N m) = true) by (induction m; cbn [repeat forallb]; [reflexivity|]; rewrite IHm; change (digit_val 48%N) with 0%N; rewrite andb_true_r; apply N.ltb_lt; lia).
    rewrite A. assert (B : fold_left (fun a c => (a * base + digit_val c)%N) (repeat 48%N m) 0%N = 0%N) by (induction m; cbn [repeat fold_left]; [reflexivity|]; cbn [repeat forallb] in A; apply andb_prop in A; change (0 * base + digit_val 48)%N with 0%N; apply IHm, A).
    unfold bytes, byte in *. rewrite B. reflexivity. }
  destruct n as [|[|n]]; [lia | reflexivity|]. intros _. unfold number. cbn [repeat].
  change ((48 =? 48)%N) with true. change (((48 =? 120) || (48 =? 88))%N) with false. cbv iota. apply (F 8%N (S n)). lia.
Qed.

Lemma long_number s sched fail : exists r, lex_file pton4 pton6 (repeat 48%N bufsize ++ s) sched fail = Ok r /\ tokens r = [LUint 0; LEof].
Proof.
  pose proof bufsize_big as B. destruct (lex_file_exact pton4 pton6 H4 H6 (repeat 48%N bufsize ++ s) sched fail) as (r & E & M). exists r. split; [exact E|].
  assert (S : spec_file pton4 pton6 fail (repeat 48%N bufsize ++ s) = [(LUint 0, (1%N, 1%N), adv (1%N, 0%N) (firstn bufsize (repeat 48%N bufsize ++ s))); (LEof, nopos, nopos)]).
  { assert (Sn : spec_number pton4 (repeat 48%N bufsize ++ s) = PTok (LUint 0) bufsize true true).
    { unfold spec_number. cbv zeta. rewrite take_while_zeros, take_while_zeros'.
      destruct (Nat.ltb_spec (length (repeat 48%N bufsize ++ take_while is_digit s)) bufsize) as [H|_]; [unfold bytes, byte in *; rewrite app_length, repeat_length in H; lia|]. cbn [andb].
      assert (Ef : firstn bufsize (repeat 48%N bufsize ++ take_while is_alnum s) = repeat 48%N bufsize).
      { rewrite firstn_app, firstn_all2 by (rewrite repeat_length; lia). rewrite repeat_length, Nat.sub_diag. apply app_nil_r. }
      unfold bytes, byte in *. rewrite Ef, number_zeros by lia. rewrite repeat_length, Nat.eqb_refl. reflexivity. }
    assert (Ez : exists q, repeat 48%N bufsize ++ s = 48%N :: q) by (destruct bufsize; [lia|]; eexists; reflexivity). destruct Ez as (q & Ez).
    rewrite Ez in *. unfold spec_file. cbn [spec_lex]. rewrite piece_start by (reflexivity || discriminate).
    change ((48 =? 34)%N) with false. change ((48 =? 91)%N) with false. change (is_digit 48%N) with true. cbv iota. unfold bytes, byte in *. rewrite Sn. reflexivity. }
  rewrite S in M. clear -M. revert M. generalize (adv (1%N, 0%N) (firstn bufsize (repeat 48%N bufsize ++ s))). intros pz M.
  destruct r as [|[[x a] b] [|[[y a'] b'] [|z r]]]; try discriminate M. cbn [map] in M. injection M as M1 M2.
  destruct x; cbn in M1; try discriminate M1. destruct y; cbn in M2; try discriminate M2. injection M1 as -> _ _. reflexivity.
Qed.
Lemma long_number_malformed : forall l, ~ lexes pton4 pton6 false (repeat 48%N bufsize ++ [34%N]) l.
Proof.
  intros l L. pose proof bufsize_big as B.
  assert (Ez : exists q, repeat 48%N bufsize ++ [34%N] = 48%N :: q) by (destruct bufsize; [lia|]; eexists; reflexivity). destruct Ez as (q & Ez).
  assert (Ha : take_while is_alnum (48%N :: q) = repeat 48%N bufsize) by (rewrite <- Ez, take_while_zeros; apply app_nil_r).
  assert (Hd : ~ In 46%N (48%N :: q)).
  { rewrite <- Ez. intros H. apply in_app_or in H. destruct H as [H|[H|[]]]; [apply repeat_spec in H|]; discriminate. }
  rewrite Ez in L. inversion L as [ |need c s l' Hc L' |need c s l' Hc L' | |need m b s l' Hm | need m b Hm | | | |d a v s l' Hd0 Hdd Haa Hs Hl Hp L' E1 |c t n s l' Hc Ht Hs Hx Hl Hp L' |c t s l' Hc]; subst; try discriminate.
  - destruct Hm as [-> | ->]; discriminate.
  - destruct Hm as [-> | ->]; discriminate.
  - apply Hd. match goal with H : _ = 48%N :: q |- _ => rewrite <- H end. apply in_or_app. left. apply in_or_app. right. left. reflexivity.
  - assert (Hb : take_while is_alnum ((48%N :: t) ++ s) = 48%N :: t) by (apply take_while_app; [cbn [forallb]; rewrite Ht; reflexivity | exact Hs]).
    pose proof (eq_trans (eq_sym Hb) Ha) as Ha2. clear Ha. rename Ha2 into Ha. apply (f_equal (@length _)) in Ha. rewrite repeat_length in Ha. cbn [length] in Ha. lia.
Qed.
End Files.
