(** The tokens of correct files, and errors for the others *)
From Verif Require Import Base BufferModel LexModel LexSpec LexProofs LexProofs4.
Local Open Scope nat_scope.

Lemma comment_len_cons c d s : comment_len (c :: d :: s) = if ((c =? 42) && (d =? 47))%N then Some 2 else option_map S (comment_len (d :: s)).
Proof. reflexivity. Qed.
Lemma comment_len_some s n : comment_len s = Some n -> exists b r, s = b ++ 42%N :: 47%N :: r /\ n = length b + 2 /\ (forall a q, b ++ [42%N] <> a ++ 42%N :: 47%N :: q).
Proof.
  revert n. induction s as [|c s IH]; intros n; [discriminate|]. cbn [comment_len].
  destruct s as [|d s]; [discriminate|]. destruct ((c =? 42)%N && (d =? 47)%N) eqn:B.
  { apply andb_prop in B. destruct B as [B1 B2]. apply N.eqb_eq in B1, B2. subst c d. intros [= <-]. exists [], s. split; [reflexivity|]. split; [reflexivity|]. intros [|x [|y a]] q; discriminate. }
  destruct (comment_len (d :: s)) as [m|] eqn:E; [|discriminate]. intros [= <-]. destruct (IH m eq_refl) as (b & r & Es & -> & Hb).
  exists (c :: b), r. split; [cbn [app]; f_equal; exact Es|]. split; [reflexivity|]. intros a q Heq.
  destruct a as [|x a]; cbn [app] in Heq; injection Heq as Hx Hy; [|exact (Hb _ _ Hy)].
  destruct b as [|y b]; cbn [app] in Es, Hy; [discriminate|]. injection Es as Es1 Es2. injection Hy as Hy1 Hy2. subst. discriminate B.
Qed.
Lemma comment_len_app b r : (forall a q, b ++ [42%N] <> a ++ 42%N :: 47%N :: q) -> comment_len (b ++ 42%N :: 47%N :: r) = Some (length b + 2).
Proof.
  induction b as [|c b IH]; intros H; [reflexivity|].
  assert (Hb : forall a q, b ++ [42%N] <> a ++ 42%N :: 47%N :: q) by (intros a q E; apply (H (c :: a) q); cbn; f_equal; exact E).
  specialize (IH Hb). destruct b as [|d b]; cbn [app] in *.
  - rewrite comment_len_cons. change ((42 =? 47)%N) with false. rewrite andb_false_r. reflexivity.
  - rewrite comment_len_cons. unfold bytes, byte in *. rewrite IH. destruct (N.eqb_spec c 42) as [->|Hc], (N.eqb_spec d 47) as [->|Hd]; cbn [andb]; try reflexivity.
    exfalso. apply (H [] (b ++ [42%N])). reflexivity.
Qed.

Lemma line_len_in s : (exists b r, s = b ++ 10%N :: r /\ ~ In 10%N b /\ line_len s = S (length b)) \/ (~ In 10%N s /\ line_len s = length s).
Proof.
  induction s as [|c s IH]; [right; split; [intros []|reflexivity]|]. cbn [line_len].
  destruct (N.eqb_spec c 10) as [->|Hc]; [left; exists [], s; split; [reflexivity|]; split; [intros [] | reflexivity]|].
  destruct IH as [(b & r & -> & Hb & El)|(Hb & El)].
  - left. exists (c :: b), r. split; [reflexivity|]. split; [intros [H|H]; congruence || contradiction | rewrite El; reflexivity].
  - right. split; [intros [H|H]; congruence || contradiction | rewrite El; reflexivity].
Qed.
Lemma line_len_app b r : ~ In 10%N b -> line_len (b ++ 10%N :: r) = S (length b).
Proof.
  induction b as [|c b IH]; intros H; [reflexivity|]. cbn [app line_len].
  destruct (N.eqb_spec c 10) as [->|]; [exfalso; apply H; left; reflexivity|]. rewrite IH; [reflexivity|]. intros Hi. apply H. right. exact Hi.
Qed.
Lemma line_len_all b : ~ In 10%N b -> line_len b = length b.
Proof.
  induction b as [|c b IH]; intros H; [reflexivity|]. cbn [line_len length].
  destruct (N.eqb_spec c 10) as [->|]; [exfalso; apply H; left; reflexivity|]. rewrite IH; [reflexivity|]. intros Hi. apply H. right. exact Hi.
Qed.

Lemma unquote_some : forall m s v n, length s < m -> unquote s = Some (v, n) -> exists b r, s = b ++ 34%N :: r /\ n = S (length b) /\ quoted b v.
Proof.
  induction m as [|m IH]; intros s v n Hm; [lia|]. destruct s as [|c s]; [discriminate|]. cbn [unquote]. cbn [length] in Hm.
  destruct (N.eqb_spec c 34) as [->|H34].
  { intros [= <- <-]. exists [], s. split; [reflexivity|]. split; [reflexivity | constructor]. }
  destruct (N.eqb_spec c 92) as [->|H92].
  - destruct s as [|d s]; [discriminate|]. destruct (unquote s) as [[v' n']|] eqn:E; [|discriminate]. intros [= <- <-].
    cbn [length] in Hm. destruct (IH s v' n' ltac:(lia) E) as (b & r & -> & -> & Q). exists (92%N :: d :: b), r. split; [reflexivity|]. split; [reflexivity|].
    destruct (N.eqb_spec d 10) as [->|]; constructor; assumption.
  - destruct (unquote s) as [[v' n']|] eqn:E; [|discriminate]. intros [= <- <-].
    destruct (IH s v' n' ltac:(lia) E) as (b & r & -> & -> & Q). exists (c :: b), r. split; [reflexivity|]. split; [reflexivity|]. constructor; assumption.
Qed.
Lemma unquote_app b v r : quoted b v -> unquote (b ++ 34%N :: r) = Some (v, S (length b)).
Proof.
  intros Q. induction Q as [|c b v H1 H2 Q IH|c b v H1 Q IH|b v Q IH]; cbn [app].
  - reflexivity.
  - cbn [unquote]. rewrite (proj2 (N.eqb_neq c 34) H1), (proj2 (N.eqb_neq c 92) H2), IH. reflexivity.
  - cbn [unquote]. change ((92 =? 34)%N) with false. change ((92 =? 92)%N) with true. cbv iota. rewrite IH, (proj2 (N.eqb_neq c 10) H1). reflexivity.
  - cbn [unquote]. change ((92 =? 34)%N) with false. change ((92 =? 92)%N) with true. cbv iota. rewrite IH. reflexivity.
Qed.
Lemma unquote_name_some : forall m s v n, length s < m -> unquote_name s = Some (v, n) -> exists b r, s = b ++ 93%N :: r /\ n = S (length b) /\ quoted_name b v.
Proof.
  induction m as [|m IH]; intros s v n Hm; [lia|]. destruct s as [|c s]; [discriminate|]. cbn [unquote_name]. cbn [length] in Hm.
  destruct (N.eqb_spec c 93) as [->|H34].
  { intros [= <- <-]. exists [], s. split; [reflexivity|]. split; [reflexivity | constructor]. }
  destruct (N.eqb_spec c 92) as [->|H92].
  - destruct s as [|d s]; [discriminate|]. destruct (unquote_name s) as [[v' n']|] eqn:E; [|discriminate]. intros [= <- <-].
    cbn [length] in Hm. destruct (IH s v' n' ltac:(lia) E) as (b & r & -> & -> & Q). exists (92%N :: d :: b), r. split; [reflexivity|]. split; [reflexivity|].
    constructor; assumption.
  - destruct (unquote_name s) as [[v' n']|] eqn:E; [|discriminate]. intros [= <- <-].
    destruct (IH s v' n' ltac:(lia) E) as (b & r & -> & -> & Q). exists (c :: b), r. split; [reflexivity|]. split; [reflexivity|]. constructor; assumption.
Qed.
Lemma unquote_name_app b v r : quoted_name b v -> unquote_name (b ++ 93%N :: r) = Some (v, S (length b)).
Proof.
  intros Q. induction Q as [|c b v H1 H2 Q IH|c b v Q IH]; cbn [app].
  - reflexivity.
  - cbn [unquote_name]. rewrite (proj2 (N.eqb_neq c 93) H1), (proj2 (N.eqb_neq c 92) H2), IH. reflexivity.
  - cbn [unquote_name]. change ((92 =? 93)%N) with false. change ((92 =? 92)%N) with true. cbv iota. rewrite IH. reflexivity.
Qed.

Lemma take_while_app P t s : forallb P t = true -> starts P s = false -> take_while P (t ++ s) = t.
Proof.
  intros H Hs. induction t as [|c t IH]; cbn [app take_while forallb] in *.
  - destruct s as [|d s]; [reflexivity|]. cbn in *. rewrite Hs. reflexivity.
  - apply andb_prop in H. destruct H as [H1 H2]. rewrite H1, (IH H2). reflexivity.
Qed.
Lemma take_while_split P s : s = take_while P s ++ skipn (length (take_while P s)) s /\ forallb P (take_while P s) = true /\ starts P (skipn (length (take_while P s)) s) = false.
Proof.
  induction s as [|c s IH]; cbn [take_while]; [auto|]. destruct (P c) eqn:E; cbn [length skipn app forallb].
  - destruct IH as (I1 & I2 & I3). rewrite E. split; [f_equal; exact I1 | split; [exact I2 | exact I3]].
  - split; [reflexivity | split; [reflexivity | exact E]].
Qed.

Section Grammar.
Variables pton4 pton6 : bytes -> option bytes.
Notation spec_lex := (spec_lex pton4 pton6).
Notation spec_piece := (spec_piece pton4 pton6).
Notation lexes := (lexes pton4 pton6).

Lemma app_skipn {A} (a b : list A) : skipn (length a) (a ++ b) = b.
Proof. induction a as [|x a IH]; [reflexivity | exact IH]. Qed.
Lemma skipn_cons {A} n x (s : list A) : skipn (S n) (x :: s) = skipn n s.
Proof. reflexivity. Qed.

Lemma lexes_nil need l : lexes need [] l -> l = [].
Proof.
  intros H. inversion H; subst; try reflexivity; try discriminate.
  - match goal with H : _ ++ _ ++ _ = [] |- _ => apply app_eq_nil in H; destruct H as [_ H]; apply app_eq_nil in H; destruct H; discriminate end.
  - match goal with H : _ ++ _ = [] |- _ => apply app_eq_nil in H; destruct H as [H _]; apply app_eq_nil in H; destruct H; discriminate end.
Qed.

(** What [spec_piece] does for each kind of piece *)
Lemma piece_start need c r : is_space c = false -> is_punct c = false -> c <> 35%N -> c <> 47%N ->
  spec_piece need (c :: r) = if need then PFail E_syntax else if (c =? 34)%N then spec_string r else if (c =? 91)%N then spec_addr6 pton6 r
      else if is_digit c then spec_number pton4 (c :: r) else if is_lower c then spec_keyword (c :: r) else PFail E_syntax.
Proof. intros H1 H2 H3 H4. cbn [LexSpec.spec_piece]. rewrite H1, H2, (proj2 (N.eqb_neq c 35) H3), (proj2 (N.eqb_neq c 47) H4). reflexivity. Qed.

Lemma digit_start c : is_digit c = true -> is_space c = false /\ is_punct c = false /\ c <> 35%N /\ c <> 47%N /\ (c =? 34)%N = false /\ (c =? 91)%N = false.
Proof. unfold is_digit, is_space, is_punct. cbn [existsb]. lia. Qed.
Lemma lower_start c : is_lower c = true -> is_space c = false /\ is_punct c = false /\ c <> 35%N /\ c <> 47%N /\ (c =? 34)%N = false /\ (c =? 91)%N = false /\ is_digit c = false.
Proof. unfold is_lower, is_digit, is_space, is_punct. cbn [existsb]. lia. Qed.

(** From the specification to the grammar *)
Lemma piece_skip need c r n l : spec_piece need (c :: r) = PSkip n -> lexes false (skipn n (c :: r)) l -> lexes need (c :: r) l.
Proof.
  cbn [LexSpec.spec_piece]. destruct (is_space c) eqn:Hs; [intros [= <-] L; constructor; assumption|].
  destruct (is_punct c); [discriminate|].
  assert (Line : forall m q l, m = [35%N] \/ m = [47%N; 47%N] -> lexes false (skipn (line_len q) q) l -> lexes need (m ++ q) l).
  { intros m q l0 Hm L. destruct (line_len_in q) as [(b & r' & -> & Hb & El)|(Hb & El)].
    - rewrite El, skipn_mid in L. apply X_line; assumption.
    - rewrite El, skipn_all in L. apply lexes_nil in L. subst l0. apply X_line_end; assumption. }
  destruct (N.eqb_spec c 35) as [->|H35]; [intros [= <-] L; apply (Line [35%N]); [left; reflexivity | exact L]|].
  destruct (N.eqb_spec c 47) as [->|H47].
  - destruct r as [|d r]; [discriminate|]. destruct (N.eqb_spec d 42) as [->|Hd].
    + destruct (comment_len r) as [m|] eqn:Ec; [|discriminate]. intros [= <-] L.
      destruct (comment_len_some _ _ Ec) as (b & q & -> & -> & Hb). apply X_block; [exact Hb|].
      rewrite !skipn_cons, skipn_add in L. unfold bytes, byte in *. rewrite app_skipn in L. exact L.
    + destruct (N.eqb_spec d 47) as [->|]; [|discriminate]. intros [= <-] L. apply (Line [47%N; 47%N]); [right; reflexivity | exact L].
  - destruct need; [discriminate|]. unfold spec_string, spec_addr6, spec_number, spec_keyword. cbv zeta.
    repeat match goal with |- context [match ?x with _ => _ end] => match x with pton4 _ => destruct x | pton6 _ => destruct x | unquote _ => destruct x as [[? ?]|] | unquote_name _ => destruct x as [[? ?]|]
      | N.eqb _ _ => destruct x | is_digit c => destruct x eqn:? | is_lower c => destruct x | number _ => destruct x | in_dec _ _ _ => destruct x | skipn _ _ => destruct x | Nat.ltb _ _ => destruct x | _ && _ => destruct x end end; discriminate.
Qed.

Lemma piece_tok need c r t n need' l : no_long_number (c :: r) -> 
  spec_piece need (c :: r) = PTok t n need' false -> lexes need' (skipn n (c :: r)) l -> lexes need (c :: r) (t :: l).
Proof.
  intros NL. cbn [LexSpec.spec_piece]. destruct (is_space c) eqn:Hs; [discriminate|].
  destruct (is_punct c) eqn:Hp; [intros [= <- <- <-] L; constructor; assumption|].
  destruct (N.eqb_spec c 35) as [->|H35]; [discriminate|].
  destruct (N.eqb_spec c 47) as [->|H47].
  { destruct r as [|d r]; [discriminate|]. destruct (d =? 42)%N; [destruct (comment_len r); discriminate|]. destruct (d =? 47)%N; discriminate. }
  destruct need; [discriminate|]. destruct (N.eqb_spec c 34) as [->|H34].
  { unfold spec_string. destruct (unquote r) as [[v m]|] eqn:E; [|discriminate]. intros [= <- <- <-] L.
    destruct (unquote_some (S (length r)) r v m ltac:(lia) E) as (b & q & -> & -> & Q). rewrite skipn_cons, skipn_mid in L. apply X_string; assumption. }
  destruct (N.eqb_spec c 91) as [->|H91].
  { unfold spec_addr6. destruct (take_while_split is_addr6 r) as (Es & Ha & _). set (a := take_while is_addr6 r) in *. clearbody a.
    destruct (skipn (length a) r) as [|d q] eqn:Eq; [discriminate|]. rewrite Es.
    destruct (N.eqb_spec d 93) as [->|H93].
    - destruct (pton6 a) as [v|] eqn:Ep; [|discriminate]. intros [= <- <- <-] L. cbn [Nat.add] in L. rewrite skipn_cons, skipn_mid in L. apply X_addr6; assumption.
    - destruct (N.eqb_spec d 37) as [->|]; [|discriminate]. destruct (pton6 a) as [v|] eqn:Ep; [|discriminate].
      destruct (unquote_name q) as [[name m]|] eqn:Eu; [|discriminate]. destruct (Nat.ltb_spec (length name) ifnamsiz); [|discriminate]. intros [= <- <- <-] L.
      destruct (unquote_name_some (S (length q)) q name m ltac:(lia) Eu) as (b & q' & -> & -> & Q).
      apply X_addr6_scoped; try assumption. cbn [Nat.add] in L. rewrite skipn_cons in L. change (S (length a + S (length b))) with (S (length a) + S (length b)) in L.
      rewrite skipn_add, skipn_mid, skipn_mid in L. exact L. }
  destruct (is_digit c) eqn:Hd.
  { unfold spec_number. cbv zeta.
    destruct (take_while_split is_digit (c :: r)) as (Es & Ha & Hst). cbn [take_while] in Es, Ha, Hst. rewrite Hd in Es, Ha, Hst.
    destruct (Nat.ltb_spec (length (take_while is_digit (c :: r))) bufsize) as [Hl|Hl]; cbn [andb].
    - destruct (N.eqb_spec (hd 0%N (skipn (length (take_while is_digit (c :: r))) (c :: r))) 46) as [He|He].
      + destruct (take_while_split is_addr4 (c :: r)) as (Es4 & Ha4 & Hst4).
        remember (take_while is_addr4 (c :: r)) as a4 eqn:Ea4.
        destruct (pton4 _) as [v|] eqn:Ep; [|discriminate]. intros [= <- <- <-] L.
        cbn [take_while] in Hl, He. rewrite Hd in Hl, He. set (d := take_while is_digit r) in *. clearbody d.
        destruct (skipn (length (c :: d)) (c :: r)) as [|e q] eqn:Eq; [discriminate|]. cbn [hd] in He. subst e.
        assert (Ea : a4 = (c :: d) ++ 46%N :: take_while is_addr4 q).
        { rewrite Ea4, Es. clear -Ha. revert Ha. generalize (c :: d). intros t Ha. induction t as [|x t IH]; [reflexivity|].
          cbn [app take_while forallb] in *. apply andb_prop in Ha. destruct Ha as [H1 H2]. unfold is_addr4 at 1. rewrite H1. cbn [orb]. f_equal. apply IH. exact H2. }
        clear Ea4. rewrite Es4. rewrite Ea in *.
        apply X_addr4; auto; try discriminate.
        rewrite forallb_app in Ha4. cbn [forallb] in Ha4. apply andb_prop in Ha4. destruct Ha4 as [_ Ha4]. apply andb_prop in Ha4. apply Ha4.
      + assert (Hx : 46%N <> hd 0%N (skipn (length (take_while is_digit (c :: r))) (c :: r))) by congruence. clear He.
        destruct (take_while_split is_alnum (c :: r)) as (Es4 & Ha4 & Hst4).
        assert (Hll : length (take_while is_alnum (c :: r)) < bufsize) by (apply (NL [] _ _ Es4 Ha4)).
        rewrite firstn_all2 in * by lia.
        assert (Hca : is_alnum c = true) by (unfold is_alnum; rewrite Hd; reflexivity).
        assert (Hsub : forallb is_digit (take_while is_alnum r) = true -> take_while is_digit r = take_while is_alnum r).
        { clear. induction r as [|x r IH]; [reflexivity|]. cbn [take_while]. destruct (is_alnum x) eqn:Ex; cbn [forallb].
          - intros H. apply andb_prop in H. destruct H as [H1 H2]. rewrite H1. f_equal. apply IH. exact H2.
          - intros _. destruct (is_digit x) eqn:Ey; [unfold is_alnum in Ex; rewrite Ey in Ex; discriminate | reflexivity]. }
        cbn [take_while] in *. rewrite Hca in *. rewrite Hd in *. cbn [length skipn] in *.
        remember (take_while is_alnum r) as t0 eqn:Et0. destruct (number (c :: t0)) as [v|] eqn:Ep; [|discriminate]. intros [= <- <- <- _] L. rewrite skipn_cons in L.
        rewrite Es4. apply X_number; auto.
        * cbn [forallb] in Ha4. apply andb_prop in Ha4. apply Ha4.
        * intros [B1 B2]. rewrite (Hsub B1) in Hx. apply Hx. destruct (skipn (length t0) r); cbn [starts hd] in B2 |- *; [discriminate|]. apply N.eqb_eq in B2. exact B2.
    - destruct (take_while_split is_digit (c :: r)) as (Es5 & Ha5 & _). exfalso.
      assert (Hx : length (take_while is_digit (c :: r)) < bufsize); [|lia]. eapply (NL []); [exact Es5|].
      rewrite forallb_forall in Ha5 |- *. intros x Hx. unfold is_alnum. rewrite (Ha5 x Hx). reflexivity. }
  destruct (is_lower c) eqn:Hl; [|discriminate].
  unfold spec_keyword. destruct (take_while_split is_kw (c :: r)) as (Es & Ha & Hst).
  assert (Hk : is_kw c = true) by (unfold is_kw; rewrite Hl; reflexivity). cbn [take_while] in *. rewrite Hk in *. remember (take_while is_kw r) as t0 eqn:Et0.
  destruct (in_dec _ _ _) as [Hi|]; [|discriminate]. intros [= <- <- <-] L. rewrite Es. cbn [length] in *. rewrite skipn_cons in *.
  apply X_keyword; auto. cbn [forallb] in Ha. apply andb_prop in Ha. apply Ha.
Qed.

Lemma no_long_suffix a s : no_long_number (a ++ s) -> no_long_number s.
Proof. intros H x t b E. apply (H (a ++ x) t b). rewrite E, <- app_assoc. reflexivity. Qed.

Lemma piece_last need c r t n need' : no_long_number (c :: r) -> spec_piece need (c :: r) <> PTok t n need' true.
Proof.
  intros NL. cbn [LexSpec.spec_piece]. destruct (is_space c); [discriminate|]. destruct (is_punct c); [discriminate|].
  destruct (c =? 35)%N; [discriminate|]. destruct (c =? 47)%N.
  { destruct r as [|d r]; [discriminate|]. destruct (d =? 42)%N; [destruct (comment_len r); discriminate|]. destruct (d =? 47)%N; discriminate. }
  destruct need; [discriminate|]. destruct (c =? 34)%N; [unfold spec_string; destruct (unquote r) as [[? ?]|]; discriminate|].
  destruct (c =? 91)%N.
  { unfold spec_addr6. destruct (skipn _ r) as [|d q]; [discriminate|]. destruct (d =? 93)%N; [destruct (pton6 _); discriminate|]. destruct (d =? 37)%N; [|discriminate].
    destruct (pton6 _); [|discriminate]. destruct (unquote_name q) as [[? ?]|]; [|discriminate]. destruct (Nat.ltb _ _); discriminate. }
  destruct (is_digit c).
  { unfold spec_number. cbv zeta. destruct (_ && _); [destruct (pton4 _); discriminate|].
    destruct (take_while_split is_alnum (c :: r)) as (Es & Ha & _).
    pose proof (NL [] _ _ Es Ha) as Hl. rewrite firstn_all2 by lia. remember (take_while is_alnum (c :: r)) as a eqn:Ea. destruct (number _); [|discriminate].
    intros [= _ _ _ H]. lia. }
  destruct (is_lower c); [|discriminate]. unfold spec_keyword. destruct (in_dec _ _ _); discriminate.
Qed.

Lemma piece_not_end need c r t n need' last : spec_piece need (c :: r) = PTok t n need' last -> is_end t = false /\ 1 <= n.
Proof.
  cbn [LexSpec.spec_piece]. pose proof bufsize_big as B. destruct (is_space c); [discriminate|]. destruct (is_punct c); [intros [= <- <- _ _]; split; [reflexivity | lia]|].
  destruct (c =? 35)%N; [discriminate|]. destruct (c =? 47)%N.
  { destruct r as [|d r]; [discriminate|]. destruct (d =? 42)%N; [destruct (comment_len r); discriminate|]. destruct (d =? 47)%N; discriminate. }
  destruct need; [discriminate|]. destruct (c =? 34)%N; [unfold spec_string; destruct (unquote r) as [[? ?]|]; [intros [= <- <- _ _]; split; [reflexivity | lia] | discriminate]|].
  destruct (c =? 91)%N.
  { unfold spec_addr6. destruct (skipn _ r) as [|d q]; [discriminate|]. destruct (d =? 93)%N; [destruct (pton6 _); [intros [= <- <- _ _]; split; [reflexivity | lia] | discriminate]|]. destruct (d =? 37)%N; [|discriminate].
    destruct (pton6 _); [|discriminate]. destruct (unquote_name q) as [[? ?]|]; [|discriminate]. destruct (Nat.ltb _ _); [intros [= <- <- _ _]; split; [reflexivity | lia] | discriminate]. }
  destruct (is_digit c) eqn:Hd.
  { unfold spec_number. cbv zeta. destruct (_ && _).
    - destruct (pton4 _); [|discriminate]. intros [= <- <- _ _]. split; [reflexivity|]. cbn [take_while]. unfold is_addr4 at 1. rewrite Hd. cbn [orb length]. lia.
    - destruct (number _); [|discriminate]. intros [= <- <- _ _]. split; [reflexivity|]. cbn [take_while]. unfold is_alnum at 1. rewrite Hd. cbn [orb]. destruct bufsize; [lia|]. cbn [firstn length]. lia. }
  destruct (is_lower c) eqn:Hl; [|discriminate]. unfold spec_keyword. destruct (in_dec _ _ _); [|discriminate]. intros [= <- <- _ _]. split; [reflexivity|].
  cbn [take_while]. assert (Hk : is_kw c = true) by (unfold is_kw; rewrite Hl; reflexivity). rewrite Hk. cbn [length]. lia.
Qed.
Lemma piece_skip_pos need c r n : spec_piece need (c :: r) = PSkip n -> 1 <= n.
Proof.
  cbn [LexSpec.spec_piece]. destruct (is_space c); [intros [= <-]; lia|]. destruct (is_punct c); [discriminate|].
  destruct (c =? 35)%N; [intros [= <-]; lia|]. destruct (c =? 47)%N.
  { destruct r as [|d r]; [discriminate|]. destruct (d =? 42)%N; [destruct (comment_len r); [intros [= <-]; lia | discriminate]|]. destruct (d =? 47)%N; [intros [= <-]; lia | discriminate]. }
  destruct need; [discriminate|]. destruct (c =? 34)%N; [unfold spec_string; destruct (unquote r) as [[? ?]|]; discriminate|].
  destruct (c =? 91)%N.
  { unfold spec_addr6. destruct (skipn _ r) as [|d q]; [discriminate|]. destruct (d =? 93)%N; [destruct (pton6 _); discriminate|]. destruct (d =? 37)%N; [|discriminate].
    destruct (pton6 _); [|discriminate]. destruct (unquote_name q) as [[? ?]|]; [|discriminate]. destruct (Nat.ltb _ _); discriminate. }
  destruct (is_digit c).
  { unfold spec_number. cbv zeta. destruct (_ && _); [destruct (pton4 _); discriminate|]. destruct (number _); discriminate. }
  destruct (is_lower c); [|discriminate]. unfold spec_keyword. destruct (in_dec _ _ _); discriminate.
Qed.

Lemma sound : forall k need p s l, length s < k -> no_long_number s -> tokens (spec_lex k false need p s) = l ++ [LEof] -> lexes need s l.
Proof.
  induction k as [|k IH]; intros need p s l Hk NL E; [lia|]. destruct s as [|c r].
  { cbn in E. destruct l as [|x l]; [constructor|]. destruct l; discriminate. }
  cbn [LexSpec.spec_lex] in E.
  assert (Suf : forall n, 1 <= n -> length (skipn n (c :: r)) < k /\ no_long_number (skipn n (c :: r))).
  { intros n Hn. split; [rewrite skipn_length; cbn [length] in *; lia|]. apply no_long_suffix with (a := firstn n (c :: r)). rewrite firstn_skipn. exact NL. }
  destruct (spec_piece need (c :: r)) as [n|t n need' last|e] eqn:Ep.
  - destruct (Suf n (piece_skip_pos _ _ _ _ Ep)) as [S1 S2]. eapply piece_skip; [exact Ep|]. eapply IH; eauto.
  - destruct (piece_not_end _ _ _ _ _ _ _ Ep) as [He Hn]. destruct last; [exfalso; eapply piece_last; eauto|].
    destruct (Suf n Hn) as [S1 S2]. cbn [tokens map fst] in E. destruct l as [|x l]; cbn [app] in E; injection E as Ex E; [subst t; discriminate|].
    subst x. eapply piece_tok; [exact NL | exact Ep|]. eapply IH; eauto.
  - cbn in E. destruct l as [|x l]; [discriminate|]. destruct l; discriminate.
Qed.

Lemma ends : forall k need p s, length s < k -> exists l e, tokens (spec_lex k false need p s) = l ++ [e] /\ is_end e = true.
Proof.
  induction k as [|k IH]; intros need p s Hk; [lia|]. destruct s as [|c r]; [exists [], LEof; split; reflexivity|].
  cbn [LexSpec.spec_lex].
  assert (Suf : forall n, 1 <= n -> length (skipn n (c :: r)) < k) by (intros n Hn; rewrite skipn_length; cbn [length] in *; lia).
  destruct (spec_piece need (c :: r)) as [n|t n need' last|e] eqn:Ep.
  - apply IH. apply Suf. exact (piece_skip_pos _ _ _ _ Ep).
  - destruct (piece_not_end _ _ _ _ _ _ _ Ep) as [He Hn]. destruct last; [exists [t], LEof; split; reflexivity|].
    destruct (IH need' (adv p (firstn n (c :: r))) (skipn n (c :: r)) (Suf n Hn)) as (l & e & E & Hend). exists (t :: l), e. split; [|exact Hend].
    cbn [tokens map fst app]. f_equal. exact E.
  - exists [], (LError e). split; reflexivity.
Qed.

(** From the grammar to the specification *)
Lemma complete need s l : lexes need s l -> forall k p, length s < k -> tokens (spec_lex k false need p s) = l ++ [LEof].
Proof.
  assert (Skip : forall need c r n s' l, spec_piece need (c :: r) = PSkip n -> skipn n (c :: r) = s' -> length s' <= length r ->
    (forall k p, length s' < k -> tokens (spec_lex k false false p s') = l ++ [LEof]) -> forall k p, length (c :: r) < k -> tokens (spec_lex k false need p (c :: r)) = l ++ [LEof]).
  { intros need0 c r n s' l0 Ep Es Hl H k p Hk. destruct k as [|k]; [lia|]. cbn [LexSpec.spec_lex]. rewrite Ep, Es. apply H. cbn [length] in Hk. lia. }
  assert (Tok : forall need c r t n need' s' l, spec_piece need (c :: r) = PTok t n need' false -> skipn n (c :: r) = s' -> length s' <= length r ->
    (forall k p, length s' < k -> tokens (spec_lex k false need' p s') = l ++ [LEof]) -> forall k p, length (c :: r) < k -> tokens (spec_lex k false need p (c :: r)) = (t :: l) ++ [LEof]).
  { intros need0 c r t n need' s' l0 Ep Es Hl H k p Hk. destruct k as [|k]; [lia|]. cbn [LexSpec.spec_lex]. rewrite Ep, Es. cbn [tokens map fst app]. f_equal. apply H. cbn [length] in Hk. lia. }
  induction 1 as [need|need c s l Hc L IH|need c s l Hc L IH|need b s l Hb L IH|need m b s l Hm Hb L IH|need m b Hm Hb|b v s l Q L IH|a v s l Ha Hp L IH
    |a v b name s l Ha Hp Q Hn L IH|d a v s l Hd0 Hd Ha Hs Hl Hp L IH|c t n s l Hc Ht Hs Hx Hl Hp L IH|c t s l Hc Ht Hs Hi L IH].
  - intros k p Hk. destruct k; [lia|]. reflexivity.
  - apply Skip with (n := 1) (s' := s); [cbn [LexSpec.spec_piece]; rewrite Hc; reflexivity | reflexivity | lia | exact IH].
  - apply Tok with (n := 1) (need' := false) (s' := s); [|reflexivity | lia | exact IH].
    cbn [LexSpec.spec_piece]. rewrite Hc. destruct (is_space c) eqn:Hsp; [|reflexivity]. exfalso. unfold is_space, is_punct in *. cbn [existsb] in *. lia.
  - apply Skip with (n := 2 + (length b + 2)) (s' := s); [|cbn [Nat.add skipn]; rewrite skipn_add, app_skipn; reflexivity | cbn [length]; rewrite app_length; cbn [length]; unfold bytes, byte in *; lia | exact IH].
    change (spec_piece need (47%N :: 42%N :: b ++ 42%N :: 47%N :: s)) with (match comment_len (b ++ 42%N :: 47%N :: s) with Some n => PSkip (2 + n) | None => PFail E_comment end).
    rewrite (comment_len_app b s Hb). reflexivity.
  - destruct Hm as [-> | ->]; cbn [app].
    + apply Skip with (n := 1 + line_len (b ++ 10%N :: s)) (s' := s); [reflexivity | cbn [Nat.add]; rewrite skipn_cons, line_len_app, skipn_mid by exact Hb; reflexivity | rewrite app_length; cbn [length]; unfold bytes, byte in *; lia | exact IH].
    + apply Skip with (n := 2 + line_len (b ++ 10%N :: s)) (s' := s); [reflexivity | cbn [Nat.add]; rewrite !skipn_cons, line_len_app, skipn_mid by exact Hb; reflexivity | cbn [length]; rewrite app_length; cbn [length]; unfold bytes, byte in *; lia | exact IH].
  - assert (End : forall k p, length (@nil byte) < k -> tokens (spec_lex k false false p []) = [] ++ [LEof]) by (intros k p Hk; destruct k; [lia|]; reflexivity).
    destruct Hm as [-> | ->]; cbn [app].
    + apply Skip with (n := 1 + line_len b) (s' := []) (l := []); [reflexivity | cbn [Nat.add]; rewrite skipn_cons, line_len_all, skipn_all by exact Hb; reflexivity | cbn; lia | exact End].
    + apply Skip with (n := 2 + line_len b) (s' := []) (l := []); [reflexivity | cbn [Nat.add]; rewrite !skipn_cons, line_len_all, skipn_all by exact Hb; reflexivity | cbn; lia | exact End].
  - apply Tok with (n := S (S (length b))) (need' := true) (s' := s); [|rewrite skipn_cons, skipn_mid; reflexivity | rewrite app_length; cbn [length]; unfold bytes, byte in *; lia | exact IH].
    change (spec_piece false (34%N :: b ++ 34%N :: s)) with (spec_string (b ++ 34%N :: s)). unfold spec_string. rewrite (unquote_app _ _ _ Q). reflexivity.
  - apply Tok with (n := 2 + length a) (need' := true) (s' := s); [|cbn [Nat.add]; rewrite skipn_cons, skipn_mid; reflexivity | rewrite app_length; cbn [length]; unfold bytes, byte in *; lia | exact IH].
    change (spec_piece false (91%N :: a ++ 93%N :: s)) with (spec_addr6 pton6 (a ++ 93%N :: s)). unfold spec_addr6.
    rewrite (take_while_app is_addr6 a (93%N :: s) Ha eq_refl). rewrite app_skipn. change ((93 =? 93)%N) with true. cbv iota. rewrite Hp. reflexivity.
  - apply Tok with (n := 2 + length a + S (length b)) (need' := true) (s' := s); [| |rewrite !app_length; cbn [length]; rewrite app_length; cbn [length]; unfold bytes, byte in *; lia | exact IH].
    + change (spec_piece false (91%N :: a ++ 37%N :: b ++ 93%N :: s)) with (spec_addr6 pton6 (a ++ 37%N :: b ++ 93%N :: s)). unfold spec_addr6.
      rewrite (take_while_app is_addr6 a (37%N :: b ++ 93%N :: s) Ha eq_refl). rewrite app_skipn. change ((37 =? 93)%N) with false. change ((37 =? 37)%N) with true. cbv iota. rewrite Hp.
      rewrite (unquote_name_app _ _ _ Q). destruct (Nat.ltb_spec (length name) ifnamsiz); [reflexivity | lia].
    + cbn [Nat.add]. rewrite skipn_cons. change (S (length a + S (length b))) with (S (length a) + S (length b)). rewrite skipn_add, skipn_mid, skipn_mid. reflexivity.
  - destruct d as [|c d]; [congruence|]. cbn [app forallb] in *. apply andb_prop in Hd. destruct Hd as [Hc Hd].
    apply Tok with (n := length (c :: d ++ 46%N :: a)) (need' := true) (s' := s); [|change (c :: (d ++ 46%N :: a) ++ s) with ((c :: d ++ 46%N :: a) ++ s); apply app_skipn | unfold bytes, byte in *; rewrite app_length; lia | exact IH].
    destruct (digit_start c Hc) as (D1 & D2 & D3 & D4 & D5 & D6). rewrite piece_start by assumption. rewrite D5, D6, Hc. unfold spec_number. cbv zeta.
    assert (Ed : take_while is_digit (c :: (d ++ 46%N :: a) ++ s) = c :: d).
    { change (c :: (d ++ 46%N :: a) ++ s) with ((c :: d ++ 46%N :: a) ++ s). change (c :: d ++ 46%N :: a) with ((c :: d) ++ 46%N :: a). rewrite <- app_assoc. apply take_while_app; [cbn [forallb]; rewrite Hc, Hd; reflexivity | reflexivity]. }
    rewrite Ed. destruct (Nat.ltb_spec (length (c :: d)) bufsize) as [_|]; [|lia].
    assert (Ek : skipn (length (c :: d)) (c :: (d ++ 46%N :: a) ++ s) = 46%N :: a ++ s).
    { change (c :: (d ++ 46%N :: a) ++ s) with ((c :: d ++ 46%N :: a) ++ s). change (c :: d ++ 46%N :: a) with ((c :: d) ++ 46%N :: a). rewrite <- app_assoc. apply app_skipn. }
    rewrite Ek. cbn [hd andb]. change ((46 =? 46)%N) with true. cbv iota.
    assert (E4 : take_while is_addr4 (c :: (d ++ 46%N :: a) ++ s) = c :: d ++ 46%N :: a).
    { change (c :: (d ++ 46%N :: a) ++ s) with ((c :: d ++ 46%N :: a) ++ s). apply take_while_app; [|exact Hs].
      cbn [forallb]. rewrite forallb_app. cbn [forallb]. rewrite Ha. unfold is_addr4 at 1. rewrite Hc. cbn [orb andb]. rewrite andb_true_r.
      clear -Hd. induction d as [|x d IHd]; [reflexivity|]. cbn [forallb] in *. apply andb_prop in Hd. destruct Hd as [H1 H2]. unfold is_addr4 at 1. rewrite H1. cbn [orb andb]. apply IHd. exact H2. }
    rewrite E4, Hp. reflexivity.
  - cbn [app]. apply Tok with (n := length (c :: t)) (need' := true) (s' := s); [|change (c :: t ++ s) with ((c :: t) ++ s); apply app_skipn | unfold bytes, byte in *; rewrite app_length; lia | exact IH].
    destruct (digit_start c Hc) as (D1 & D2 & D3 & D4 & D5 & D6). rewrite piece_start by assumption. rewrite D5, D6, Hc. unfold spec_number. cbv zeta.
    assert (Ea : take_while is_alnum (c :: t ++ s) = c :: t).
    { change (c :: t ++ s) with ((c :: t) ++ s). apply take_while_app; [|exact Hs]. cbn [forallb]. unfold is_alnum at 1. rewrite Hc, Ht. reflexivity. }
    rewrite Ea. rewrite firstn_all2 by (cbn [length]; lia). rewrite Hp. cbn [length]. destruct (Nat.eqb_spec (S (length t)) bufsize); [lia|].
    assert (Hdot : (hd 0%N (skipn (length (take_while is_digit (c :: t ++ s))) (c :: t ++ s)) =? 46)%N = false).
    { apply N.eqb_neq. intros Hh. cbn [take_while] in Hh. rewrite Hc in Hh. cbn [length skipn] in Hh. clear -Hx Ht Hh Hs. revert Ht Hx Hh.
      induction t as [|x t IHt]; cbn [app take_while forallb length skipn]; intros Ht Hx Hh.
      - apply Hx. split; [reflexivity|]. destruct s as [|y s]; cbn [take_while] in Hh; [discriminate|]. destruct (is_digit y) eqn:Ey; cbn [length skipn hd starts] in *.
        + exfalso. cbn [starts] in Hs. unfold is_alnum in Hs. rewrite Ey in Hs. discriminate Hs.
        + subst y. reflexivity.
      - apply andb_prop in Ht. destruct Ht as [H1 H2]. destruct (is_digit x) eqn:Ex; cbn [length skipn hd] in Hh.
        + apply IHt; auto.
        + subst x. discriminate H1. }
    rewrite Hdot, andb_false_r. reflexivity.
  - cbn [app]. apply Tok with (n := length (c :: t)) (need' := true) (s' := s); [|change (c :: t ++ s) with ((c :: t) ++ s); apply app_skipn | unfold bytes, byte in *; rewrite app_length; lia | exact IH].
    destruct (lower_start c Hc) as (D1 & D2 & D3 & D4 & D5 & D6 & D7). rewrite piece_start by assumption. rewrite D5, D6, D7, Hc. unfold spec_keyword.
    assert (Ea : take_while is_kw (c :: t ++ s) = c :: t).
    { change (c :: t ++ s) with ((c :: t) ++ s). apply take_while_app; [|exact Hs]. cbn [forallb]. unfold is_kw at 1. rewrite Hc, Ht. reflexivity. }
    rewrite Ea. destruct (in_dec _ _ _); [reflexivity | contradiction].
Qed.
End Grammar.
