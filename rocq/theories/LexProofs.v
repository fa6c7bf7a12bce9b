(** The lexer follows the specification for every splitting of the reads *)
From Verif Require Import Base BufferModel LexModel LexSpec.
Local Open Scope nat_scope.

Lemma bufsize_big : 1000 < bufsize.
Proof. unfold bufsize. lia. Qed.
Global Opaque bufsize.

(** What the state of the lexer says about the contents: [t] is the current token, [s] what follows it *)
Record pre (fail need : bool) (p f : pos) (x : lexst) (t s : bytes) : Prop := mk_pre {
  v_fail : x_fail x = fail;
  v_need : x_need x = need;
  v_pos : (x_line x, x_col x) = p;
  v_first : (x_fline x, x_fcol x) = f;
  v_tok : x_tok x = length t;
  v_split : skipn (x_start x) (x_data x) ++ x_rest x = t ++ s;
  v_le : x_start x + length t <= length (x_data x);
  v_cap : length (x_data x) <= bufsize;
  v_ferr : x_ferr x = true -> fail = true /\ x_rest x = [] /\ length (x_data x) < bufsize }.
Record view (fail need : bool) (p f : pos) (x : lexst) (t s : bytes) : Prop := mk_view {
  v_pre : pre fail need p f x t s;
  v_live : s = [] \/ length t = bufsize \/ x_start x + length t < length (x_data x);
  v_eof : s = [] -> length t < bufsize -> x_ferr x = fail }.

Definition is_nil {A} (l : list A) : bool := match l with [] => true | _ => false end.

Lemma pre_data fail need p f x t s : pre fail need p f x t s ->
  exists d, skipn (x_start x) (x_data x) = t ++ d /\ s = d ++ x_rest x /\ length (x_data x) = x_start x + length t + length d.
Proof.
  intros V. pose proof (v_split _ _ _ _ _ _ _ V) as E. pose proof (v_le _ _ _ _ _ _ _ V) as L.
  assert (Ll : length (skipn (x_start x) (x_data x)) = length (x_data x) - x_start x) by apply skipn_length.
  exists (skipn (length t) (skipn (x_start x) (x_data x))).
  assert (Et : t = firstn (length t) (skipn (x_start x) (x_data x))).
  { assert (H : firstn (length t) (skipn (x_start x) (x_data x) ++ x_rest x) = firstn (length t) (t ++ s)) by (rewrite E; reflexivity).
    rewrite firstn_app, firstn_app in H. rewrite Nat.sub_diag, firstn_all in H. cbn in H. rewrite app_nil_r in H.
    replace (length t - length (skipn (x_start x) (x_data x))) with 0 in H by lia. cbn in H. rewrite app_nil_r in H. auto. }
  split; [rewrite Et at 1; symmetry; apply firstn_skipn|]. split.
  - assert (H : skipn (length t) (skipn (x_start x) (x_data x) ++ x_rest x) = skipn (length t) (t ++ s)) by (rewrite E; reflexivity).
    rewrite skipn_app, skipn_app in H. rewrite Nat.sub_diag, skipn_all in H. cbn in H.
    replace (length t - length (skipn (x_start x) (x_data x))) with 0 in H by lia. auto.
  - rewrite skipn_length, Ll. lia.
Qed.

Lemma nth_error_skipn {A} (l : list A) n i : nth_error (skipn n l) i = nth_error l (n + i).
Proof. revert l. induction n as [|n IH]; intros [|a l]; cbn; auto. destruct i; reflexivity. Qed.

Lemma current_view fail need p f x t c s : view fail need p f x t (c :: s) -> length t < bufsize -> current x = Ok c.
Proof.
  intros V Lt. destruct (pre_data _ _ _ _ _ _ _ (v_pre _ _ _ _ _ _ _ V)) as (d & Ed & Es & El).
  destruct (v_live _ _ _ _ _ _ _ V) as [H|[H|H]]; [discriminate | lia |].
  destruct d as [|c' d]; [cbn in El; lia|]. injection Es as <- _.
  unfold current. rewrite <- nth_error_skipn, Ed, (v_tok _ _ _ _ _ _ _ (v_pre _ _ _ _ _ _ _ V)).
  rewrite nth_error_app2 by lia. rewrite Nat.sub_diag. reflexivity.
Qed.

Lemma skipn_add {A} (l : list A) n m : skipn (n + m) l = skipn m (skipn n l).
Proof. revert l. induction n as [|n IH]; intros [|a l]; cbn; auto. destruct m; reflexivity. Qed.
Lemma skipn_nil' {A} n : @skipn A n [] = [].
Proof. destruct n; reflexivity. Qed.

(** The end of [next] *)
Lemma step_view fail need p f x t s : pre fail need p f x t s ->
  exists x', (if Nat.leb (x_end x) (x_start x + x_tok x) then advance x else (x, true)) = (x', negb (is_nil s) && Nat.ltb (length t) bufsize) /\
    view fail need p f x' t s.
Proof.
  intros V. destruct (pre_data _ _ _ _ _ _ _ V) as (d & Ed & Es & El).
  pose proof (v_cap _ _ _ _ _ _ _ V) as C. pose proof (v_tok _ _ _ _ _ _ _ V) as T. rewrite T. unfold x_end.
  destruct (Nat.leb_spec (length (x_data x)) (x_start x + length t)) as [H|H].
  - assert (d = []) by (destruct d; [reflexivity | cbn in El; lia]). subst d. rewrite app_nil_r in Ed. cbn in Es.
    unfold advance, x_end. cbn [x_data x_start x_tok x_need x_rest x_sched x_fail x_ferr x_line x_col x_fline x_fcol]. rewrite Ed.
    destruct (Nat.eqb_spec (length t) bufsize) as [Hb|Hb].
    + eexists. split; [rewrite Hb, Nat.ltb_irrefl, andb_false_r; reflexivity|].
      split; [split; cbn; auto; try apply V|..]; try lia; auto.
      * rewrite <- Es. reflexivity.
      * intros F. destruct (v_ferr _ _ _ _ _ _ _ V F) as (? & ? & ?). repeat split; auto; lia.
    + unfold fread. cbn [x_data x_start x_tok x_need x_rest x_sched x_fail x_ferr x_line x_col x_fline x_fcol].
      rewrite <- Es. set (m := Nat.max 1 _). assert (Hm : 1 <= m) by (unfold m; lia). clearbody m.
      set (l := Nat.min (bufsize - length t) (Nat.min (length s) m)). assert (Hl : l = Nat.min (bufsize - length t) (Nat.min (length s) m)) by reflexivity. clearbody l.
      assert (Hlt : length t < bufsize) by lia.
      eexists. split; [f_equal; rewrite (proj2 (Nat.ltb_lt _ _) Hlt), andb_true_r; destruct s as [|a s]; cbn [length is_nil] in *; destruct (Nat.eqb_spec l 0); cbn; try reflexivity; lia|].
      assert (Fl : length (firstn l s) = l) by (rewrite firstn_length; lia).
      split; [split|..]; cbn [x_data x_start x_tok x_need x_rest x_sched x_fail x_ferr x_line x_col x_fline x_fcol skipn]; try apply V; auto.
      * rewrite <- app_assoc, firstn_skipn. reflexivity.
      * rewrite app_length. lia.
      * rewrite app_length, Fl. lia.
      * intros F. rewrite app_length, Fl. destruct (x_ferr x) eqn:Ef.
        -- destruct (v_ferr _ _ _ _ _ _ _ V Ef) as (? & Er & ?). rewrite <- Es in Er. rewrite Er, skipn_nil'. rewrite Er in Hl. cbn in Hl. repeat split; auto; lia.
        -- cbn [orb] in F. apply andb_prop in F. destruct F as [F F2]. apply andb_prop in F. destruct F as [F0 F1].
           rewrite (v_fail _ _ _ _ _ _ _ V) in F0. apply Nat.eqb_eq in F1. apply Nat.ltb_lt in F2.
           apply length_zero_iff_nil in F1. rewrite F1. repeat split; auto; lia.
      * destruct s as [|a s]; [auto|]. right; right. rewrite app_length, Fl. cbn [length] in Hl. lia.
      * intros -> _. rewrite skipn_nil'. cbn [length] in *. rewrite (v_fail _ _ _ _ _ _ _ V).
        assert (Hlw : Nat.ltb l (bufsize - length t) = true) by (apply Nat.ltb_lt; lia). rewrite Hlw.
        destruct (x_ferr x) eqn:Ef; cbn; [destruct (v_ferr _ _ _ _ _ _ _ V Ef) as (? & _); auto | destruct fail; reflexivity].
  - exists x. destruct d as [|a d]; [cbn in El; lia|].
    split; [subst s; cbn [app is_nil negb andb]; rewrite (proj2 (Nat.ltb_lt (length t) bufsize)) by lia; reflexivity|].
    split; [exact V | right; right; lia | subst s; discriminate].
Qed.

Lemma adv1_line (p : pos) c (l k : N) : (l, k) = p ->
  (if (c =? 10)%N then ((l + 1)%N, 0%N) else (l, (k + 1)%N)) = adv1 p c.
Proof. intros <-. reflexivity. Qed.

Lemma next_view_tok fail need p f x t c s : view fail need p f x t (c :: s) -> length t < bufsize ->
  exists x', next false x = Ok (x', negb (is_nil s) && Nat.ltb (S (length t)) bufsize) /\ view fail need (adv1 p c) f x' (t ++ [c]) s.
Proof.
  intros V Lt. pose proof (current_view _ _ _ _ _ _ _ _ V Lt) as Hc. pose proof (v_pre _ _ _ _ _ _ _ V) as P.
  destruct (pre_data _ _ _ _ _ _ _ P) as (d & Ed & Es & El).
  assert (Hlive : x_start x + length t < length (x_data x)) by (destruct (v_live _ _ _ _ _ _ _ V) as [H|[H|H]]; [discriminate | lia | exact H]).
  unfold next. pose proof (v_tok _ _ _ _ _ _ _ P) as T. unfold x_end at 1. rewrite T.
  destruct (Nat.leb_spec (length (x_data x)) (x_start x + length t)); [lia|].
  rewrite Hc. cbn [bind]. rewrite (adv1_line _ c _ _ (v_pos _ _ _ _ _ _ _ P)).
  destruct (adv1 p c) as [ln cl] eqn:Ea.
  match goal with |- context [advance ?y] => set (x1 := y) end.
  destruct (step_view fail need (ln, cl) f x1 (t ++ [c]) s) as (x' & E & V').
  { split; cbn; try apply P; auto.
    - rewrite app_length. cbn. lia.
    - rewrite <- app_assoc. apply P.
    - rewrite app_length. cbn. lia. }
  exists x'. split; [|exact V']. rewrite app_length in E. cbn [length] in E. replace (length t + 1) with (S (length t)) in E by lia.
  rewrite <- E. destruct (Nat.leb (x_end x1) (x_start x1 + x_tok x1)); reflexivity.
Qed.

(** Moving the window of a token of any length; with an empty token this skips a byte *)
Lemma next_view_move fail need p f x t c s : view fail need p f x t (c :: s) -> length t < bufsize ->
  exists x', next true x = Ok (x', negb (is_nil s)) /\ view fail need (adv1 p c) f x' (tl (t ++ [c])) s.
Proof.
  intros V Lt. pose proof (current_view _ _ _ _ _ _ _ _ V Lt) as Hc. pose proof (v_pre _ _ _ _ _ _ _ V) as P.
  destruct (pre_data _ _ _ _ _ _ _ P) as (d & Ed & Es & El).
  assert (Hlive : x_start x + length t < length (x_data x)) by (destruct (v_live _ _ _ _ _ _ _ V) as [H|[H|H]]; [discriminate | lia | exact H]).
  assert (Htl : length (tl (t ++ [c])) = length t) by (destruct t; cbn; [reflexivity | rewrite app_length; cbn; lia]).
  unfold next. pose proof (v_tok _ _ _ _ _ _ _ P) as T. unfold x_end at 1. rewrite T.
  destruct (Nat.leb_spec (length (x_data x)) (x_start x + length t)); [lia|].
  rewrite Hc. cbn [bind]. rewrite (adv1_line _ c _ _ (v_pos _ _ _ _ _ _ _ P)).
  destruct (adv1 p c) as [ln cl] eqn:Ea.
  match goal with |- context [advance ?y] => set (x1 := y) end.
  destruct (step_view fail need (ln, cl) f x1 (tl (t ++ [c])) s) as (x' & E & V').
  { split; cbn [x1 x_data x_start x_tok x_need x_rest x_sched x_fail x_ferr x_line x_col x_fline x_fcol]; try apply P; auto; try lia.
    destruct d as [|c' d]; [cbn in El; lia|]. injection Es as <- Es. rewrite Es.
    assert (Hs : skipn (S (x_start x)) (x_data x) = tl (t ++ c :: d)).
    { rewrite <- Ed. clear. revert x. intros x. generalize (x_start x) (x_data x). clear.
      induction n as [|n IH]; intros [|a l]; cbn; auto. specialize (IH l). destruct l; cbn in *; auto. }
    rewrite Hs. destruct t as [|a t]; cbn; [reflexivity|]. rewrite <- !app_assoc. reflexivity. }
  exists x'. split; [|exact V']. rewrite Htl, (proj2 (Nat.ltb_lt _ _) Lt), andb_true_r in E.
  rewrite <- E. destruct (Nat.leb (x_end x1) (x_start x1 + x_tok x1)); reflexivity.
Qed.

Lemma next_view fail need p f x c s : view fail need p f x [] (c :: s) ->
  exists x', next true x = Ok (x', negb (is_nil s)) /\ view fail need (adv1 p c) f x' [] s.
Proof. intros V. destruct (next_view_move _ _ _ _ _ _ _ _ V) as (x' & E & V'); [pose proof bufsize_big; cbn; lia|]. exists x'. split; [exact E | exact V']. Qed.

Lemma current_view0 fail need p f x c s : view fail need p f x [] (c :: s) -> current x = Ok c.
Proof. intros V. eapply current_view; [exact V|]. pose proof bufsize_big. cbn. lia. Qed.

Lemma consume_view fail need p f x t s need' : view fail need p f x t s -> length t < bufsize ->
  view fail need' p f (consume need' x) [] s.
Proof.
  intros V Lt. pose proof (v_pre _ _ _ _ _ _ _ V) as P. destruct (pre_data _ _ _ _ _ _ _ P) as (d & Ed & Es & El).
  pose proof (v_tok _ _ _ _ _ _ _ P) as T.
  split; [split|..]; cbn; try apply P; auto.
  - rewrite T, Es. cbn. f_equal. rewrite skipn_add, Ed, skipn_app, skipn_all, Nat.sub_diag. reflexivity.
  - rewrite T. lia.
  - rewrite T. destruct (v_live _ _ _ _ _ _ _ V) as [H|[H|H]]; [auto | lia | right; right; lia].
  - intros H _. apply (v_eof _ _ _ _ _ _ _ V H Lt).
Qed.

Lemma first_view fail need p f x s f1 f2 : view fail need p f x [] s ->
  view fail need p (f1, f2) (mk_lexst (x_data x) (x_start x) (x_tok x) (x_need x) (x_rest x) (x_sched x) (x_fail x) (x_ferr x)
                 (x_line x) (x_col x) f1 f2) [] s.
Proof. intros [P L E]. split; [split|..]; cbn; try apply P; auto. Qed.

Lemma fuel_view fail need p f x t s : view fail need p f x t s -> length s < fuel_of x.
Proof.
  intros V. destruct (pre_data _ _ _ _ _ _ _ (v_pre _ _ _ _ _ _ _ V)) as (d & Ed & Es & El). unfold fuel_of. subst s. rewrite app_length. lia.
Qed.

Lemma init_view s sched fail : view fail false (1%N, 0%N) (1%N, 0%N) (lex_init s sched fail) [] s.
Proof.
  unfold lex_init. match goal with |- context [advance ?y] => set (x0 := y) end.
  destruct (step_view fail false (1%N, 0%N) (1%N, 0%N) x0 [] s) as (x' & E & V).
  { split; cbn; auto; try lia; try discriminate. }
  change (Nat.leb (x_end x0) (x_start x0 + x_tok x0)) with true in E. cbv iota in E. rewrite E. exact V.
Qed.

(** Errors *)
Definition calm (fail : bool) (x : lexst) : Prop := x_ferr x = true -> fail = true.
Lemma view_calm fail need p f x t s : view fail need p f x t s -> calm fail x.
Proof. intros V E. apply (v_ferr _ _ _ _ _ _ _ (v_pre _ _ _ _ _ _ _ V) E). Qed.

Lemma adv_app p a b : adv p (a ++ b) = adv (adv p a) b.
Proof. unfold adv. apply fold_left_app. Qed.
Lemma adv_one p a : adv p [a] = adv1 p a.
Proof. reflexivity. Qed.
Lemma adv_cons p a b : adv p (a :: b) = adv (adv1 p a) b.
Proof. reflexivity. Qed.

(** * Comments *)
Fixpoint cl (prev : byte) (s : bytes) : option nat :=
  match s with
  | [] => None
  | d :: s => if ((prev =? 42) && (d =? 47))%N then Some 1 else option_map S (cl d s)
  end.
Lemma comment_len_cl c s : comment_len (c :: s) = option_map S (cl c s).
Proof.
  revert c. induction s as [|d s IH]; intros c; [reflexivity|]. cbn [cl]. change (comment_len (c :: d :: s)) with (if ((c =? 42) && (d =? 47))%N then Some 2 else option_map S (comment_len (d :: s))).
  destruct ((c =? 42) && (d =? 47))%N; [reflexivity|]. rewrite IH. reflexivity.
Qed.
Lemma comment_len_cl0 s : comment_len s = cl 0%N s.
Proof. destruct s as [|c s]; [reflexivity|]. rewrite comment_len_cl. reflexivity. Qed.

Lemma comment_view fail f : forall fuel need p x prev c s, view fail need p f x [] (c :: s) -> length s < fuel ->
  match cl prev s with
  | Some n => exists x', comment_loop fuel prev x = Ok (x', true) /\ view fail false (adv p (c :: firstn n s)) f x' [] (skipn n s)
  | None => exists x', comment_loop fuel prev x = Ok (x', false) /\ calm fail x'
  end.
Proof.
  induction fuel as [|fuel IH]; intros need p x prev c s V Hf; [lia|].
  destruct (next_view _ _ _ _ _ _ _ V) as (x1 & E1 & V1). cbn [comment_loop]. rewrite E1. cbn [bind].
  destruct s as [|d s]; cbn [is_nil negb cl]; [exists x1; split; [reflexivity | exact (view_calm _ _ _ _ _ _ _ V1)]|].
  rewrite (current_view0 _ _ _ _ _ _ _ V1). cbn [bind].
  destruct ((prev =? 42) && (d =? 47))%N.
  - destruct (next_view _ _ _ _ _ _ _ V1) as (x2 & E2 & V2). rewrite E2. cbn [bind]. eexists. split; [reflexivity|].
    cbn [firstn skipn]. rewrite adv_cons, adv_one. apply (consume_view _ _ _ _ _ _ _ _ V2). cbn. pose proof bufsize_big. lia.
  - cbn in Hf. specialize (IH need (adv1 p c) x1 d d s V1 ltac:(lia)). destruct (cl d s) as [n|]; cbn [option_map]; [|exact IH].
    destruct IH as (x' & E & V'). exists x'. split; [exact E|]. cbn [firstn skipn]. rewrite adv_cons. exact V'.
Qed.

Lemma line_loop_view fail f : forall fuel need p x c s, view fail need p f x [] (c :: s) -> length s < fuel ->
  exists x', line_loop fuel x = Ok x' /\
  ((exists b r, s = b ++ 10%N :: r /\ line_len s = S (length b) /\ view fail need (adv p (c :: b)) f x' [] (10%N :: r)) \/
   (line_len s = length s /\ view fail need (adv p (c :: s)) f x' [] [])).
Proof.
  induction fuel as [|fuel IH]; intros need p x c s V Hf; [lia|].
  destruct (next_view _ _ _ _ _ _ _ V) as (x1 & E1 & V1). cbn [line_loop]. rewrite E1. cbn [bind].
  destruct s as [|d s]; cbn [is_nil negb]; [exists x1; split; [reflexivity | right; split; [reflexivity | exact V1]]|].
  rewrite (current_view0 _ _ _ _ _ _ _ V1). cbn [bind line_len].
  destruct (N.eqb_spec d 10) as [->|Hd].
  - exists x1. split; [reflexivity|]. left. exists [], s. split; [reflexivity|]. split; [reflexivity | exact V1].
  - cbn in Hf. destruct (IH need (adv1 p c) x1 d s V1 ltac:(lia)) as (x' & E & [(b & r & Es & El & V')|(El & V')]); exists x'; (split; [exact E|]).
    + left. exists (d :: b), r. subst s. split; [reflexivity|]. split; [cbn [length]; lia | rewrite adv_cons; exact V'].
    + right. split; [cbn; lia | rewrite adv_cons; exact V'].
Qed.

Lemma firstn_mid {A} (b : list A) c r : firstn (S (length b)) (b ++ c :: r) = b ++ [c].
Proof. induction b as [|a b IH]; cbn; [reflexivity | f_equal; exact IH]. Qed.
Lemma skipn_mid {A} (b : list A) c r : skipn (S (length b)) (b ++ c :: r) = r.
Proof. induction b as [|a b IH]; cbn; [reflexivity | exact IH]. Qed.

Lemma line_comment_view fail need p f x c s : view fail need p f x [] (c :: s) ->
  exists x', line_comment x = Ok x' /\ view fail false (adv p (c :: firstn (line_len s) s)) f x' [] (skipn (line_len s) s).
Proof.
  intros V. pose proof bufsize_big as B.
  assert (Hf : length s < fuel_of x) by (pose proof (fuel_view _ _ _ _ _ _ _ V) as H; cbn [length] in H; unfold byte in *; lia).
  destruct (line_loop_view fail f (fuel_of x) need p x c s V Hf) as (x1 & E & [(b & r & Es & El & V')|(El & V')]).
  - unfold line_comment. rewrite E. cbn [bind]. destruct (next_view _ _ _ _ _ _ _ V') as (x2 & E2 & V2). rewrite E2. cbn [bind].
    eexists. split; [reflexivity|]. rewrite El, Es, firstn_mid, skipn_mid. apply consume_view with (need := need) (t := []); [|cbn; lia].
    change (c :: b ++ [10%N]) with ((c :: b) ++ [10%N]). rewrite adv_app. exact V2.
  - unfold line_comment. rewrite E. cbn [bind]. rewrite El, firstn_all, skipn_all.
    assert (En : next true x1 = Ok (x1, false)).
    { pose proof (v_pre _ _ _ _ _ _ _ V') as P. destruct (pre_data _ _ _ _ _ _ _ P) as (d & Ed & Es & El').
      destruct d; [|discriminate]. unfold next, x_end. rewrite (v_tok _ _ _ _ _ _ _ P). cbn [length] in *.
      destruct (Nat.leb_spec (length (x_data x1)) (x_start x1 + 0)); [reflexivity | lia]. }
    rewrite En. cbn [bind]. eexists. split; [reflexivity|]. apply consume_view with (need := need) (t := []); [exact V' | cbn; lia].
Qed.

(** * Strings *)
Lemma string_view fail f : forall fuel need p x c s cap buf, view fail need p f x [] (c :: s) -> length s < fuel -> length buf <= cap -> 0 < cap ->
  match unquote s with
  | Some (v, n) => exists x' b r, string_loop fuel cap buf x = Ok (x', Some (buf ++ v)) /\ s = b ++ 34%N :: r /\ n = S (length b) /\
      view fail need (adv p (c :: b)) f x' [] (34%N :: r)
  | None => exists x', string_loop fuel cap buf x = Ok (x', None) /\ calm fail x'
  end.
Proof.
  induction fuel as [|fuel IH]; intros need p x c s cap buf V Hf Hc Hp; [lia|].
  destruct (next_view _ _ _ _ _ _ _ V) as (x1 & E1 & V1). cbn [string_loop]. rewrite E1. cbn [bind].
  destruct s as [|d s]; cbn [is_nil negb unquote]; [exists x1; split; [reflexivity | exact (view_calm _ _ _ _ _ _ _ V1)]|].
  rewrite (current_view0 _ _ _ _ _ _ _ V1). cbn [bind].
  assert (St : forall a, exists cap', store cap buf a = Ok (cap', buf ++ [a]) /\ length (buf ++ [a]) <= cap' /\ 0 < cap').
  { intros a. unfold store. destruct (Nat.leb_spec cap (length buf)).
    - destruct (Nat.ltb_spec (length buf) (2 * cap)); [|lia]. eexists. split; [reflexivity|]. rewrite app_length. cbn [length]. lia.
    - destruct (Nat.ltb_spec (length buf) cap); [|lia]. eexists. split; [reflexivity|]. rewrite app_length. cbn [length]. lia. }
  destruct (N.eqb_spec d 34) as [->|H34].
  - exists x1, [], s. rewrite app_nil_r. split; [reflexivity|]. split; [reflexivity|]. split; [reflexivity | exact V1].
  - destruct (N.eqb_spec d 92) as [->|H92].
    + destruct (next_view _ _ _ _ _ _ _ V1) as (x2 & E2 & V2). rewrite E2. cbn [bind].
      destruct s as [|e s]; cbn [is_nil negb]; [exists x2; split; [reflexivity | exact (view_calm _ _ _ _ _ _ _ V2)]|].
      rewrite (current_view0 _ _ _ _ _ _ _ V2). cbn [bind]. cbn in Hf. destruct (e =? 10)%N.
      * specialize (IH need _ x2 e s cap buf V2 ltac:(lia) Hc Hp). destruct (unquote s) as [[v n]|]; [|exact IH].
        destruct IH as (x' & b & r & E & Es & En & V'). exists x', (92%N :: e :: b), r. subst s n. split; [exact E|]. split; [reflexivity|]. split; [reflexivity | exact V'].
      * destruct (St e) as (cap' & Es & Hc' & Hp'). rewrite Es. cbn [bind].
        specialize (IH need _ x2 e s cap' (buf ++ [e]) V2 ltac:(lia) Hc' Hp'). destruct (unquote s) as [[v n]|]; [|exact IH].
        destruct IH as (x' & b & r & E & Es' & En & V'). exists x', (92%N :: e :: b), r. subst s n. rewrite <- app_assoc in E. split; [exact E|]. split; [reflexivity|]. split; [reflexivity | exact V'].
    + destruct (St d) as (cap' & Es & Hc' & Hp'). rewrite Es. cbn [bind]. cbn in Hf.
      specialize (IH need _ x1 d s cap' (buf ++ [d]) V1 ltac:(lia) Hc' Hp'). destruct (unquote s) as [[v n]|]; [|exact IH].
      destruct IH as (x' & b & r & E & Es' & En & V'). exists x', (d :: b), r. subst s n. rewrite <- app_assoc in E. split; [exact E|]. split; [reflexivity|]. split; [reflexivity | exact V'].
Qed.

(** What a [parse_*] function has to do for a piece at the start of [s] *)
Definition matches (fail : bool) (p f : pos) (s : bytes) (r : res (lexst * lexeme)) (pc : piece) : Prop :=
  match pc with
  | PSkip _ => False
  | PTok l n need false => exists x', r = Ok (x', l) /\ view fail need (adv p (firstn n s)) f x' [] (skipn n s)
  | PTok l n _ true => exists x', r = Ok (x', l) /\ x_end x' <= x_start x' /\ x_ferr x' = false /\ (x_line x', x_col x') = adv p (firstn n s) /\ (x_fline x', x_fcol x') = f
  | PFail e => exists x', r = Ok (lex_fail e x') /\ calm fail x'
  end.

Lemma parse_string_view fail p f x (s : bytes) : view fail false p f x [] (34%N :: s) ->
  matches fail p f (34%N :: s) (parse_string x) (spec_string s).
Proof.
  intros V. pose proof bufsize_big as B. unfold parse_string. rewrite (v_need _ _ _ _ _ _ _ (v_pre _ _ _ _ _ _ _ V)).
  assert (Hf : length s < fuel_of x) by (pose proof (fuel_view _ _ _ _ _ _ _ V) as H; cbn [length] in H; unfold byte in *; lia).
  pose proof (string_view fail f (fuel_of x) false p x 34%N s bufsize [] V Hf ltac:(cbn; lia) ltac:(lia)) as H.
  unfold spec_string. destruct (unquote s) as [[v n]|].
  - destruct H as (x1 & b & r & E & Es & En & V1). rewrite E. cbn [bind app].
    destruct (next_view _ _ _ _ _ _ _ V1) as (x2 & E2 & V2). rewrite E2. cbn [bind].
    eexists. split; [reflexivity|]. subst s. cbn [firstn skipn]. rewrite En, firstn_mid, skipn_mid.
    change (34%N :: b ++ [34%N]) with ((34%N :: b) ++ [34%N]). rewrite adv_app. apply consume_view with (need := false) (t := []); [exact V2 | cbn; lia].
  - destruct H as (x1 & E & C). rewrite E. cbn [bind]. exists x1. split; [reflexivity | exact C].
Qed.

(** * Scanning tokens *)
Lemma scan_view fail f P : forall fuel need p x t c s, view fail need p f x t (c :: s) -> length t < bufsize -> length s < fuel ->
  let u := firstn (bufsize - length t - 1) (take_while P s) in
  exists x', scan P fuel x = Ok x' /\ view fail need (adv p (c :: u)) f x' (t ++ c :: u) (skipn (length u) s).
Proof.
  induction fuel as [|fuel IH]; intros need p x t c s V Lt Hf; [lia|]. cbv zeta.
  destruct (next_view_tok _ _ _ _ _ _ _ _ V Lt) as (x1 & E1 & V1). cbn [scan]. rewrite E1. cbn [bind].
  destruct s as [|d s]; cbn [is_nil negb andb].
  - exists x1. split; [reflexivity|]. cbn [take_while]. rewrite firstn_nil. exact V1.
  - destruct (Nat.ltb_spec (S (length t)) bufsize) as [Hl|Hl].
    + rewrite (current_view _ _ _ _ _ _ _ _ V1) by (rewrite app_length; cbn; lia). cbn [bind take_while].
      destruct (P d).
      * cbn in Hf. destruct (IH need _ x1 (t ++ [c]) d s V1 ltac:(rewrite app_length; cbn; lia) ltac:(lia)) as (x' & E & V').
        exists x'. split; [exact E|]. rewrite app_length in V'. cbn [length] in V'.
        replace (bufsize - length t - 1) with (S (bufsize - (length t + 1) - 1)) by lia. cbn [firstn length skipn].
        rewrite <- app_assoc in V'. exact V'.
      * exists x1. split; [reflexivity|]. rewrite firstn_nil. exact V1.
    + exists x1. split; [reflexivity|]. replace (bufsize - length t - 1) with 0 by lia. cbn [firstn]. exact V1.
Qed.

Lemma token_view fail need p f x t s : view fail need p f x t s -> get_token x = t.
Proof.
  intros V. pose proof (v_pre _ _ _ _ _ _ _ V) as P. destruct (pre_data _ _ _ _ _ _ _ P) as (d & Ed & Es & El).
  unfold get_token, slice. rewrite Ed, (v_tok _ _ _ _ _ _ _ P), firstn_app, Nat.sub_diag, firstn_all. cbn. apply app_nil_r.
Qed.

Lemma take_while_len P s : length (take_while P s) <= length s.
Proof. induction s as [|c s IH]; cbn; [lia|]. destruct (P c); cbn; lia. Qed.
Lemma take_while_firstn P s : firstn (length (take_while P s)) s = take_while P s.
Proof. induction s as [|c s IH]; cbn; [reflexivity|]. destruct (P c); cbn; [f_equal; exact IH | reflexivity]. Qed.

(** * Keywords *)
Lemma strcmp_eq a b : strcmp a b = Eq -> a = b.
Proof.
  revert b. induction a as [|c a IH]; intros [|d b]; cbn; try discriminate; auto.
  destruct (N.compare_spec c d) as [->| |]; try discriminate. intros H. f_equal. apply IH; exact H.
Qed.
Lemma strcmp_refl a : strcmp a a = Eq.
Proof. induction a as [|c a IH]; cbn; [reflexivity|]. rewrite N.compare_refl. exact IH. Qed.
Lemma strcmp_trans a b c : strcmp a b = Lt -> strcmp b c = Lt -> strcmp a c = Lt.
Proof.
  revert b c. induction a as [|x a IH]; intros [|y b] [|z c]; cbn; try discriminate; auto.
  destruct (N.compare_spec x y) as [->|Hxy|Hxy]; try discriminate.
  - destruct (N.compare_spec y z); try discriminate; auto. intros. eapply IH; eauto.
  - intros _. destruct (N.compare_spec y z) as [->|Hyz|Hyz]; try discriminate; intros _.
    + rewrite (proj2 (N.compare_lt_iff x z) Hxy). reflexivity.
    + rewrite (proj2 (N.compare_lt_iff x z)) by lia. reflexivity.
Qed.
Lemma strcmp_antisym a b : strcmp a b = CompOpp (strcmp b a).
Proof.
  revert b. induction a as [|x a IH]; intros [|y b]; cbn; auto.
  rewrite (N.compare_antisym y x). destruct (N.compare y x); cbn; auto.
Qed.

Definition lt_next (i : nat) : bool := match strcmp (nth i keywords []) (nth (S i) keywords []) with Lt => true | _ => false end.
Lemma keywords_sorted_step : forallb lt_next (seq 0 (length keywords - 1)) = true.
Proof. vm_compute. reflexivity. Qed.
Lemma keywords_short : forallb (fun k => Nat.ltb (length k) 20) keywords = true.
Proof. vm_compute. reflexivity. Qed.
Lemma keywords_sorted i j : i < j -> j < length keywords -> strcmp (nth i keywords []) (nth j keywords []) = Lt.
Proof.
  intros Hij. induction Hij as [|j Hij IH]; intros Hj.
  - pose proof keywords_sorted_step as H. rewrite forallb_forall in H. specialize (H i). unfold lt_next in H.
    destruct (strcmp (nth i keywords []) (nth (S i) keywords [])); [|reflexivity|]; discriminate H; apply in_seq; lia.
  - apply strcmp_trans with (nth j keywords []); [apply IH; lia|].
    pose proof keywords_sorted_step as H. rewrite forallb_forall in H. specialize (H j). unfold lt_next in H.
    destruct (strcmp (nth j keywords []) (nth (S j) keywords [])); [|reflexivity|]; discriminate H; apply in_seq; lia.
Qed.

Lemma bsearch_sound fuel key : forall lo hi i, bsearch fuel key lo hi = Some i -> nth i keywords [] = key /\ i < hi.
Proof.
  induction fuel as [|fuel IH]; intros lo hi i; cbn [bsearch]; [discriminate|].
  destruct (Nat.ltb_spec lo hi) as [H|H]; [|discriminate].
  assert (Hm : Nat.div2 (lo + hi) < hi) by (rewrite Nat.div2_div; apply Nat.div_lt_upper_bound; lia).
  destruct (strcmp key _) eqn:E; intros Hi.
  - injection Hi as <-. split; [symmetry; apply strcmp_eq; exact E | exact Hm].
  - apply IH in Hi. destruct Hi. split; [assumption | lia].
  - apply IH in Hi. exact Hi.
Qed.
Lemma bsearch_complete fuel : forall lo hi j, lo <= j -> j < hi -> hi <= length keywords -> hi - lo < fuel ->
  bsearch fuel (nth j keywords []) lo hi <> None.
Proof.
  induction fuel as [|fuel IH]; intros lo hi j Hlo Hhi Hl Hf; [lia|]. cbn [bsearch].
  destruct (Nat.ltb_spec lo hi) as [H|H]; [|lia].
  assert (Hm : Nat.div2 (lo + hi) < hi) by (rewrite Nat.div2_div; apply Nat.div_lt_upper_bound; lia).
  assert (Hm2 : lo <= Nat.div2 (lo + hi)) by (rewrite Nat.div2_div; apply Nat.div_le_lower_bound; lia).
  set (m := Nat.div2 (lo + hi)) in *. clearbody m.
  destruct (lt_eq_lt_dec j m) as [[Hj| ->]|Hj].
  - rewrite keywords_sorted by lia. apply IH; lia.
  - rewrite strcmp_refl. discriminate.
  - rewrite strcmp_antisym, keywords_sorted by lia. cbn. apply IH; lia.
Qed.

Lemma bsearch_spec key : match bsearch (S (length keywords)) key 0 (length keywords) with
  | Some i => nth i keywords [] = key /\ In key keywords
  | None => ~ In key keywords
  end.
Proof.
  destruct (bsearch _ key 0 _) as [i|] eqn:E.
  - apply bsearch_sound in E. destruct E as [E L]. split; [exact E|]. rewrite <- E. apply nth_In. exact L.
  - intros H. apply In_nth with (d := []) in H. destruct H as (j & Hj & Ej). rewrite <- Ej in E.
    exact (bsearch_complete (S (length keywords)) 0 (length keywords) j ltac:(lia) Hj ltac:(lia) ltac:(lia) E).
Qed.

Lemma parse_keyword_view fail p f x c s : view fail false p f x [] (c :: s) -> is_kw c = true ->
  matches fail p f (c :: s) (parse_keyword x) (spec_keyword (c :: s)).
Proof.
  intros V Hc. pose proof bufsize_big as B. unfold parse_keyword. rewrite (v_need _ _ _ _ _ _ _ (v_pre _ _ _ _ _ _ _ V)).
  assert (Hf : length s < fuel_of x) by (pose proof (fuel_view _ _ _ _ _ _ _ V) as H; cbn [length] in H; unfold byte in *; lia).
  destruct (scan_view fail f is_kw (fuel_of x) false p x [] c s V ltac:(cbn; lia) Hf) as (x1 & E & V1). rewrite E. cbn [bind].
  cbn [length app] in V1. rewrite (token_view _ _ _ _ _ _ _ V1). unfold spec_keyword. cbn [take_while]. rewrite Hc.
  set (u := take_while is_kw s) in *. assert (Hu : u = take_while is_kw s) by reflexivity. clearbody u.
  pose proof (bsearch_spec (c :: firstn (bufsize - 0 - 1) u)) as S.
  assert (Long : forall k : bytes, In k keywords -> length k < 20).
  { intros k Hk. pose proof keywords_short as H. rewrite forallb_forall in H. apply Nat.ltb_lt, H, Hk. }
  destruct (Nat.ltb_spec (length u) (bufsize - 1)) as [Hl|Hl].
  - rewrite (firstn_all2 u) in * by lia.
    destruct (bsearch _ _ _ _) as [i|], (in_dec _ _ _) as [Hi|Hi]; try (destruct S; contradiction); try contradiction.
    + destruct S as [-> _]. eexists. split; [reflexivity|]. cbn [length firstn skipn].
      assert (Eu : firstn (length u) s = u) by (rewrite Hu; apply take_while_firstn). rewrite Eu.
      apply consume_view with (need := false) (t := c :: u); [exact V1 | cbn; lia].
    + exists x1. split; [reflexivity | exact (view_calm _ _ _ _ _ _ _ V1)].
  - destruct (bsearch _ _ _ _) as [i|].
    + destruct S as [_ S]. apply Long in S. cbn [length] in S. rewrite firstn_length in S. lia.
    + destruct (in_dec _ _ _) as [Hi|Hi]; [apply Long in Hi; cbn [length] in Hi; lia|].
      exists x1. split; [reflexivity | exact (view_calm _ _ _ _ _ _ _ V1)].
Qed.
