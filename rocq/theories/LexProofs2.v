(** Numbers, addresses and the whole lexer *)
From Verif Require Import Base BufferModel LexModel LexSpec LexProofs.
Local Open Scope nat_scope.

(** * Numbers *)
Lemma strtoull_loop_spec base s : (2 <= base)%N -> (base <= 16)%N -> forall acc0 acc, acc = N.min ullong_max acc0 ->
  strtoull_loop base acc s =
  if forallb (fun c => (digit_val c <? base)%N) s then Some (N.min ullong_max (fold_left (fun a c => (a * base + digit_val c)%N) s acc0)) else None.
Proof.
  intros B B2. induction s as [|c s IH]; intros acc0 acc ->; cbn [strtoull_loop forallb fold_left]; [reflexivity|].
  destruct (N.ltb_spec (digit_val c) base) as [D|D]; cbn [andb]; [|reflexivity].
  apply IH. set (d := digit_val c) in *. clearbody d.
  assert (M : (ullong_max = 18446744073709551615)%N) by reflexivity. rewrite M. clear M.
  set (m := 18446744073709551615%N). assert (Hm : (16 < m)%N) by (unfold m; lia). clearbody m.
  destruct (N.ltb_spec ((m - d) / base) (N.min m acc0)) as [H|H].
  - assert (H1 : (m - d < base * N.min m acc0)%N).
    { pose proof (N.div_mod' (m - d) base) as E. pose proof (N.mod_lt (m - d) base ltac:(lia)). nia. }
    symmetry. apply N.min_l. destruct (N.le_ge_cases m acc0); [nia|]. rewrite N.min_r in H1 by lia. nia.
  - assert (H1 : (base * N.min m acc0 <= m - d)%N).
    { pose proof (N.div_mod' (m - d) base) as E. nia. }
    destruct (N.le_ge_cases m acc0) as [Hm'|Hm'].
    + rewrite N.min_l in H1 by lia. nia.
    + rewrite N.min_r in * by lia. rewrite N.min_r by nia. nia.
Qed.

Lemma strtoull_spec s : strtoull s = number s.
Proof.
  assert (L : forall base s, (2 <= base)%N -> (base <= 16)%N -> strtoull_loop base 0 s = digits_val base s).
  { intros base s' H1 H2. apply strtoull_loop_spec; auto. }
  unfold number. destruct s as [|c [|x r]].
  - reflexivity.
  - rewrite <- L by lia. unfold strtoull. repeat (destruct c as [|c]; [reflexivity|]). 
    destruct c as [c|c|]; try reflexivity; repeat (destruct c as [c|c|]; try reflexivity).
  - destruct (N.eqb_spec c 48) as [->|Hc].
    + cbn [strtoull]. destruct ((x =? 120)%N || (x =? 88)%N); [destruct r; [reflexivity | apply L; lia] | apply L; lia].
    + rewrite <- L by lia. unfold strtoull. destruct c as [|c]; [reflexivity|].
      repeat (destruct c as [c|c|]; try reflexivity). congruence.
Qed.

(** The bytes the loop of [parse_number] takes when [k] more fit, and whether it stops at a dot *)
Fixpoint nl (o : bool) (k : nat) (s : bytes) : bytes * bool :=
  match k, s with
  | O, _ => ([], false)
  | _, [] => ([], false)
  | S k, d :: s =>
    if ((d =? 46)%N && o) then ([], true)
    else if is_digit d then let (u, b) := nl o k s in (d :: u, b)
    else if is_lower d || is_upper d then let (u, b) := nl false k s in (d :: u, b)
    else ([], false)
  end.

Lemma number_loop_view fail f : forall fuel need p x t c s o, view fail need p f x t (c :: s) -> length t < bufsize -> length s < fuel ->
  let (u, b) := nl o (bufsize - length t - 1) s in
  exists x', number_loop fuel o x = Ok (x', b) /\ view fail need (adv p (c :: u)) f x' (t ++ c :: u) (skipn (length u) s).
Proof.
  induction fuel as [|fuel IH]; intros need p x t c s o V Lt Hf; [lia|].
  destruct (next_view_tok _ _ _ _ _ _ _ _ V Lt) as (x1 & E1 & V1). cbn [number_loop]. rewrite E1. cbn [bind].
  destruct s as [|d s]; cbn [is_nil negb andb].
  - destruct (bufsize - length t - 1); cbn [nl]; exists x1; (split; [reflexivity | exact V1]).
  - destruct (Nat.ltb_spec (S (length t)) bufsize) as [Hl|Hl].
    + rewrite (current_view _ _ _ _ _ _ _ _ V1) by (rewrite app_length; cbn; lia). cbn [bind].
      replace (bufsize - length t - 1) with (S (bufsize - (length t + 1) - 1)) by lia. cbn [nl].
      destruct ((d =? 46)%N && o); [exists x1; split; [reflexivity | exact V1]|].
      cbn in Hf.
      assert (IH' : forall o, let (u, b) := nl o (bufsize - (length t + 1) - 1) s in
        exists x', number_loop fuel o x1 = Ok (x', b) /\ view fail need (adv p (c :: d :: u)) f x' (t ++ c :: d :: u) (skipn (length u) s)).
      { intros o'. specialize (IH need _ x1 (t ++ [c]) d s o' V1 ltac:(rewrite app_length; cbn; lia) ltac:(lia)).
        rewrite app_length in IH. cbn [length] in IH. destruct (nl o' _ s) as [u b]. destruct IH as (x' & E & V').
        exists x'. split; [exact E|]. rewrite <- app_assoc in V'. exact V'. }
      destruct (is_digit d); [|destruct (is_lower d || is_upper d)].
      * specialize (IH' o). destruct (nl o _ s) as [u b]. exact IH'.
      * specialize (IH' false). destruct (nl false _ s) as [u b]. exact IH'.
      * exists x1. split; [reflexivity | exact V1].
    + replace (bufsize - length t - 1) with 0 by lia. cbn [nl]. exists x1. split; [reflexivity | exact V1].
Qed.

Lemma nl_false k : forall s, nl false k s = (firstn k (take_while is_alnum s), false).
Proof.
  induction k as [|k IH]; intros s; [reflexivity|]. destruct s as [|d s]; [reflexivity|]. cbn [nl take_while].
  rewrite andb_false_r. unfold is_alnum at 1. destruct (is_digit d); cbn [orb]; [rewrite IH; reflexivity|].
  destruct (is_lower d || is_upper d); [rewrite IH; reflexivity | reflexivity].
Qed.
Lemma nl_true k : forall s, nl true k s =
  let d := take_while is_digit s in
  if (Nat.ltb (length d) k && (hd 0 (skipn (length d) s) =? 46)%N) then (d, true) else (firstn k (take_while is_alnum s), false).
Proof.
  induction k as [|k IH]; intros s; cbv zeta; [reflexivity|]. destruct s as [|d s]; [reflexivity|].
  cbn [nl take_while]. rewrite andb_true_r.
  destruct (N.eqb_spec d 46) as [->|Hd]; [reflexivity|].
  unfold is_alnum at 1. destruct (is_digit d) eqn:Ed; cbn [orb].
  - rewrite IH. cbv zeta. cbn [length skipn]. change (Nat.ltb (S (length (take_while is_digit s))) (S k)) with (Nat.ltb (length (take_while is_digit s)) k).
    destruct (Nat.ltb _ k && _); reflexivity.
  - cbn [length skipn hd]. rewrite (proj2 (N.eqb_neq d 46) Hd), andb_false_r.
    destruct (is_lower d || is_upper d); [rewrite nl_false; reflexivity | reflexivity].
Qed.

Lemma take_while_digit_dot s r : skipn (length (take_while is_digit s)) s = (46%N : byte) :: r ->
  take_while is_addr4 s = take_while is_digit s ++ 46%N :: take_while is_addr4 r.
Proof.
  induction s as [|c s IH]; cbn [take_while length skipn]; [discriminate|].
  unfold is_addr4 at 1. destruct (is_digit c) eqn:E; cbn [length skipn orb].
  - intros H. rewrite IH by exact H. reflexivity.
  - intros [= -> ->]. reflexivity.
Qed.

Lemma firstn_alnum_len k s : firstn (length (firstn k (take_while is_alnum s))) s = firstn k (take_while is_alnum s).
Proof.
  revert k. induction s as [|c s IH]; intros k; cbn [take_while]; [rewrite !firstn_nil; reflexivity|].
  destruct (is_alnum c); [|rewrite firstn_nil; reflexivity]. destruct k; [reflexivity|]. cbn [firstn length]. f_equal. apply IH.
Qed.

Section Pton.
Variables pton4 pton6 : bytes -> option bytes.
Hypothesis H4 : forall a : bytes, 15 < length a -> pton4 a = None.
Hypothesis H6 : forall a : bytes, 45 < length a -> pton6 a = None.

Lemma parse_number_view fail p f x c s : view fail false p f x [] (c :: s) -> is_digit c = true ->
  matches fail p f (c :: s) (parse_number pton4 x) (spec_number pton4 (c :: s)).
Proof.
  intros V Hc. pose proof bufsize_big as B. unfold parse_number. rewrite (v_need _ _ _ _ _ _ _ (v_pre _ _ _ _ _ _ _ V)).
  assert (Hf : length s < fuel_of x) by (pose proof (fuel_view _ _ _ _ _ _ _ V) as H; cbn [length] in H; unfold byte in *; lia).
  pose proof (number_loop_view fail f (fuel_of x) false p x [] c s true V ltac:(cbn; lia) Hf) as H.
  rewrite nl_true in H. cbv zeta in H. cbn [length app] in H.
  unfold spec_number. cbn [take_while]. rewrite Hc. assert (Ha : is_alnum c = true) by (unfold is_alnum; rewrite Hc; reflexivity). rewrite Ha.
  cbn [length skipn].
  set (d := take_while is_digit s) in *. assert (Ed : d = take_while is_digit s) by reflexivity. clearbody d.
  destruct (Nat.ltb_spec (length d) (bufsize - 0 - 1)) as [Hl|Hl]; destruct (N.eqb_spec (hd 0%N (skipn (length d) s)) 46) as [Hd|Hd];
    cbn [andb] in H; destruct H as (x1 & E & V1); rewrite E; cbn [bind].
  - (* IPv4 *)
    destruct (Nat.ltb_spec (S (length d)) bufsize); [|lia]. cbn [andb].
    destruct (skipn (length d) s) as [|e r] eqn:Er; [discriminate|]. cbn [hd] in Hd. subst e.
    unfold parse_ipv4_address. rewrite (v_need _ _ _ _ _ _ _ (v_pre _ _ _ _ _ _ _ V1)).
    destruct (scan_view fail f is_addr4 (fuel_of x1) false _ x1 (c :: d) 46%N r V1) as (x2 & E2 & V2); [cbn; lia | pose proof (fuel_view _ _ _ _ _ _ _ V1) as Hx; cbn [length] in Hx; lia|].
    rewrite E2. cbn [bind]. rewrite (token_view _ _ _ _ _ _ _ V2).
    assert (Hac : is_addr4 c = true) by (unfold is_addr4; rewrite Hc; reflexivity).
    rewrite Hac. assert (Ea : take_while is_addr4 s = d ++ 46%N :: take_while is_addr4 r) by (rewrite Ed in *; apply take_while_digit_dot; exact Er).
    rewrite Ea. set (q := take_while is_addr4 r) in *. assert (Eq : q = take_while is_addr4 r) by reflexivity. clearbody q.
    cbn [length] in *.
    destruct (Nat.ltb_spec (length q) (bufsize - S (length d) - 1)) as [Hq|Hq].
    + rewrite (firstn_all2 q) in * by lia. cbn [app] in *.
      unfold bytes, byte in *.
      destruct (pton4 (c :: d ++ 46%N :: q)); [|exists x2; split; [reflexivity | exact (view_calm _ _ _ _ _ _ _ V2)]].
      eexists. split; [reflexivity|]. cbn [length firstn skipn].
      assert (Es : s = d ++ 46%N :: r).
      { rewrite <- (firstn_skipn (length d) s), Er. f_equal. rewrite Ed. apply take_while_firstn. }
      assert (F1 : firstn (length (d ++ 46%N :: q)) s = d ++ 46%N :: q) by (rewrite <- Ea; apply take_while_firstn).
      assert (F2 : skipn (length (d ++ 46%N :: q)) s = skipn (length q) r).
      { rewrite Es, app_length, skipn_add, skipn_app, skipn_all, Nat.sub_diag. reflexivity. }
      unfold bytes, byte in *. rewrite F1, F2. change (c :: d ++ 46%N :: q) with ((c :: d) ++ 46%N :: q). rewrite adv_app.
      apply consume_view with (need := false) (t := (c :: d) ++ 46%N :: q); [exact V2 | rewrite app_length; cbn; lia].
    + rewrite !H4; [exists x2; split; [reflexivity | exact (view_calm _ _ _ _ _ _ _ V2)]| |].
      * cbn [length]. rewrite app_length. cbn [length]. lia.
      * rewrite app_length. cbn [length]. rewrite firstn_length. lia.
  - rewrite andb_false_r. rewrite (token_view _ _ _ _ _ _ _ V1), strtoull_spec.
    destruct bufsize as [|bs] eqn:Ebs; [lia|]. cbn [firstn]. rewrite <- Ebs in *. replace (bufsize - 0 - 1) with bs in * by lia.
    set (u := firstn bs (take_while is_alnum s)) in *. assert (Hu : u = firstn bs (take_while is_alnum s)) by reflexivity.
    assert (Lu : length u <= bs) by (rewrite Hu, firstn_length; lia).
    assert (F : firstn (length u) s = u) by (rewrite Hu; apply firstn_alnum_len). clearbody u.
    destruct (number (c :: u)) as [v|]; [|exists x1; split; [reflexivity | exact (view_calm _ _ _ _ _ _ _ V1)]].
    cbn [length]. destruct (Nat.eqb_spec (S (length u)) bufsize) as [He|He].
    + eexists. split; [reflexivity|]. cbn [firstn]. rewrite F. pose proof (v_pre _ _ _ _ _ _ _ V1) as P.
      pose proof (v_le _ _ _ _ _ _ _ P) as L1. pose proof (v_cap _ _ _ _ _ _ _ P) as L2. pose proof (v_tok _ _ _ _ _ _ _ P) as T. cbn [length] in *.
      unfold consume, x_end. cbn [x_data x_start x_tok x_need x_rest x_sched x_fail x_ferr x_line x_col x_fline x_fcol].
      split; [lia|]. split; [|split; apply P].
      destruct (x_ferr x1) eqn:Ef; [|reflexivity]. destruct (v_ferr _ _ _ _ _ _ _ P Ef) as (_ & _ & ?). lia.
    + eexists. split; [reflexivity|]. cbn [firstn skipn]. rewrite F.
      apply consume_view with (need := false) (t := c :: u); [exact V1 | cbn; lia].
  - destruct (Nat.ltb_spec (S (length d)) bufsize); [lia|]. cbn [andb]. rewrite (token_view _ _ _ _ _ _ _ V1), strtoull_spec.
    destruct bufsize as [|bs] eqn:Ebs; [lia|]. cbn [firstn]. rewrite <- Ebs in *. replace (bufsize - 0 - 1) with bs in * by lia.
    set (u := firstn bs (take_while is_alnum s)) in *. assert (Hu : u = firstn bs (take_while is_alnum s)) by reflexivity.
    assert (Lu : length u <= bs) by (rewrite Hu, firstn_length; lia).
    assert (F : firstn (length u) s = u) by (rewrite Hu; apply firstn_alnum_len). clearbody u.
    destruct (number (c :: u)) as [v|]; [|exists x1; split; [reflexivity | exact (view_calm _ _ _ _ _ _ _ V1)]].
    cbn [length]. destruct (Nat.eqb_spec (S (length u)) bufsize) as [He|He].
    + eexists. split; [reflexivity|]. cbn [firstn]. rewrite F. pose proof (v_pre _ _ _ _ _ _ _ V1) as P.
      pose proof (v_le _ _ _ _ _ _ _ P) as L1. pose proof (v_cap _ _ _ _ _ _ _ P) as L2. pose proof (v_tok _ _ _ _ _ _ _ P) as T. cbn [length] in *.
      unfold consume, x_end. cbn [x_data x_start x_tok x_need x_rest x_sched x_fail x_ferr x_line x_col x_fline x_fcol].
      split; [lia|]. split; [|split; apply P].
      destruct (x_ferr x1) eqn:Ef; [|reflexivity]. destruct (v_ferr _ _ _ _ _ _ _ P Ef) as (_ & _ & ?). lia.
    + eexists. split; [reflexivity|]. cbn [firstn skipn]. rewrite F.
      apply consume_view with (need := false) (t := c :: u); [exact V1 | cbn; lia].
  - rewrite andb_false_r. rewrite (token_view _ _ _ _ _ _ _ V1), strtoull_spec.
    destruct bufsize as [|bs] eqn:Ebs; [lia|]. cbn [firstn]. rewrite <- Ebs in *. replace (bufsize - 0 - 1) with bs in * by lia.
    set (u := firstn bs (take_while is_alnum s)) in *. assert (Hu : u = firstn bs (take_while is_alnum s)) by reflexivity.
    assert (Lu : length u <= bs) by (rewrite Hu, firstn_length; lia).
    assert (F : firstn (length u) s = u) by (rewrite Hu; apply firstn_alnum_len). clearbody u.
    destruct (number (c :: u)) as [v|]; [|exists x1; split; [reflexivity | exact (view_calm _ _ _ _ _ _ _ V1)]].
    cbn [length]. destruct (Nat.eqb_spec (S (length u)) bufsize) as [He|He].
    + eexists. split; [reflexivity|]. cbn [firstn]. rewrite F. pose proof (v_pre _ _ _ _ _ _ _ V1) as P.
      pose proof (v_le _ _ _ _ _ _ _ P) as L1. pose proof (v_cap _ _ _ _ _ _ _ P) as L2. pose proof (v_tok _ _ _ _ _ _ _ P) as T. cbn [length] in *.
      unfold consume, x_end. cbn [x_data x_start x_tok x_need x_rest x_sched x_fail x_ferr x_line x_col x_fline x_fcol].
      split; [lia|]. split; [|split; apply P].
      destruct (x_ferr x1) eqn:Ef; [|reflexivity]. destruct (v_ferr _ _ _ _ _ _ _ P Ef) as (_ & _ & ?). lia.
    + eexists. split; [reflexivity|]. cbn [firstn skipn]. rewrite F.
      apply consume_view with (need := false) (t := c :: u); [exact V1 | cbn; lia].
Qed.
End Pton.
