(** Proofs about the formatter *)
From Verif Require Import Base BaseLemmas BufferModel FormatModel FormatSpec.

Lemma skip_skip : forall A a b (l : list A), skipn (a + b) l = skipn b (skipn a l).
Proof. intros A a. induction a as [|a IH]; intros b l; [reflexivity|]. destruct l; cbn [Nat.add skipn]; [rewrite !skipn_nil; reflexivity | apply IH]. Qed.

Lemma write_ok : forall data mem pos, (pos + length data <= length mem)%nat ->
  write_at mem pos data = Ok (firstn pos mem ++ data ++ skipn (pos + length data) mem).
Proof.
  intros data. induction data as [|b r IH]; intros mem pos H; cbn [write_at length] in *.
  - rewrite Nat.add_0_r. cbn [app]. rewrite firstn_skipn. reflexivity.
  - replace (Nat.ltb pos (length mem)) with true by (symmetry; apply Nat.ltb_lt; lia).
    assert (L : length (firstn pos mem ++ b :: skipn (S pos) mem) = length mem) by (rewrite app_length; cbn [length]; rewrite firstn_length, skipn_length; lia).
    rewrite IH by lia. f_equal.
    rewrite firstn_app, firstn_length, Nat.min_l by lia. rewrite (firstn_all2 (n := S pos)) by (rewrite firstn_length; lia).
    replace (S pos - pos)%nat with 1%nat by lia. cbn [firstn]. rewrite <- app_assoc. cbn [app]. do 2 f_equal.
    rewrite skipn_app, firstn_length, Nat.min_l by lia. rewrite skipn_all2 by (rewrite firstn_length; lia). cbn [app].
    replace (S pos + length r - pos)%nat with (S (length r)) by lia. rewrite skipn_cons, <- skip_skip. replace (pos + S (length r))%nat with (S pos + length r)%nat by lia. reflexivity.
Qed.
Lemma write_len : forall data mem pos mem', write_at mem pos data = Ok mem' -> length mem' = length mem.
Proof.
  intros data. induction data as [|b r IH]; intros mem pos mem' H; cbn [write_at] in H; [injection H as <-; reflexivity|].
  destruct (Nat.ltb_spec pos (length mem)) as [Hl|]; [|discriminate]. apply IH in H. rewrite H, app_length. cbn [length]. rewrite firstn_length, skipn_length. lia.
Qed.

(** [out] has been printed up to [pos] into [size] bytes *)
Definition printed (size : nat) (mem : bytes) (pos : nat) (out : bytes) : Prop :=
  length mem = size /\
  (pos < size -> length out = pos /\ firstn pos mem = out)%nat /\
  (size <= pos -> size <= length out /\ firstn (size - 1) mem = firstn (size - 1) out)%nat.

Lemma printed_more : forall size mem pos out more, printed size mem pos out -> (size <= pos)%nat -> printed size mem pos (out ++ more).
Proof.
  intros size mem pos out more (H1 & H2 & H3) Hp. split; [exact H1|]. split; [lia|]. intros _. destruct (H3 Hp) as [H4 H5]. split; [rewrite app_length; lia|].
  rewrite H5, firstn_app. replace (size - 1 - length out)%nat with 0%nat by lia. cbn [firstn]. rewrite app_nil_r. reflexivity.
Qed.

Lemma firstn_written : forall A (l d r : list A) pos n, length l = pos -> firstn (pos + n) (l ++ d ++ r) = l ++ firstn n (d ++ r).
Proof. intros A l d r pos n H. rewrite firstn_app, H. rewrite firstn_all2 by lia. replace (pos + n - pos)%nat with n by lia. reflexivity. Qed.

Lemma raw_print : forall size mem pos out s, printed size mem pos out -> (pos < size)%nat ->
  exists mem', vsnprintf mem pos (size - pos) (Text s) = Ok (mem', Some (length s)) /\
    (printed size mem' (pos + length s) (out ++ s) /\ printed size mem' (pos + Nat.min (length s) (size - pos)) (out ++ s)).
Proof.
  intros size mem pos out s (H1 & H2 & _) Hp. destruct (H2 Hp) as [H4 H5]. unfold vsnprintf. replace (Nat.eqb (size - pos) 0) with false by (symmetry; apply Nat.eqb_neq; lia).
  set (w := firstn (size - pos - 1) s ++ [0%N]). assert (Lw : length w = S (Nat.min (size - pos - 1) (length s))) by (unfold w; rewrite app_length, firstn_length; cbn [length]; lia).
  rewrite write_ok by lia. cbn [bind]. eexists. split; [reflexivity|].
  assert (Lm : length (firstn pos mem ++ w ++ skipn (pos + length w) mem) = size) by (rewrite !app_length, firstn_length, skipn_length; lia).
  assert (Small : (length s < size - pos)%nat -> firstn (pos + length s) (firstn pos mem ++ w ++ skipn (pos + length w) mem) = out ++ s).
  { intros Hs. rewrite firstn_written by (rewrite firstn_length; lia). rewrite H5. f_equal. unfold w. rewrite (@firstn_all2 _ _ s) by lia. rewrite <- app_assoc, firstn_app, firstn_all, Nat.sub_diag. cbn [firstn]. apply app_nil_r. }
  assert (Big : (size - pos <= length s)%nat -> firstn (size - 1) (firstn pos mem ++ w ++ skipn (pos + length w) mem) = firstn (size - 1) (out ++ s)).
  { intros Hs. replace (size - 1)%nat with (pos + (size - pos - 1))%nat by lia. rewrite firstn_written by (rewrite firstn_length; lia). rewrite H5.
    rewrite (firstn_app _ out s), H4. rewrite (@firstn_all2 _ _ out) by lia. replace (pos + (size - pos - 1) - pos)%nat with (size - pos - 1)%nat by lia. f_equal.
    unfold w. rewrite <- app_assoc, firstn_app, firstn_length. rewrite Nat.min_l by lia. rewrite Nat.sub_diag. cbn [firstn]. rewrite app_nil_r, firstn_firstn, Nat.min_id. reflexivity. }
  split; (split; [exact Lm|]); (split; [intros Hx | intros Hx; split; [rewrite app_length; lia | apply Big; lia]]).
  - split; [rewrite app_length; lia | apply Small; lia].
  - replace (Nat.min (length s) (size - pos)) with (length s) by lia. split; [rewrite app_length; lia | apply Small; lia].
Qed.

Lemma failed_print : forall size mem pos out junk, printed size mem pos out -> (pos < size)%nat ->
  exists mem', vsnprintf mem pos (size - pos) (Failed junk) = Ok (mem', None) /\ printed size mem' pos out.
Proof.
  intros size mem pos out junk (H1 & H2 & _) Hp. destruct (H2 Hp) as [H4 H5]. unfold vsnprintf.
  assert (L : (length (firstn (size - pos) junk) <= size - pos)%nat) by (rewrite firstn_length; lia).
  rewrite write_ok by lia. cbn [bind]. eexists. split; [reflexivity|]. split; [rewrite !app_length, firstn_length, skipn_length; lia|]. split; [|lia].
  intros _. split; [exact H4|]. rewrite firstn_app, firstn_firstn, firstn_length, Nat.min_id. replace (pos - Nat.min pos (length mem))%nat with 0%nat by lia. cbn [firstn]. rewrite app_nil_r. exact H5.
Qed.

Lemma safe_print : forall size mem pos out r, printed size mem pos out -> (pos < size)%nat ->
  exists mem' n, snprintf_safe mem pos (size - pos) r = Ok (mem', n) /\ printed size mem' (pos + n) (out ++ text_of r) /\ (pos + n <= size)%nat.
Proof.
  intros size mem pos out r H Hp. unfold snprintf_safe. destruct r as [s|junk]; cbn [text_of].
  - destruct (raw_print size mem pos out s H Hp) as (mem' & E & _ & P). rewrite E. cbn [bind fst snd]. eexists _, _. split; [reflexivity|]. split; [exact P | lia].
  - destruct (failed_print size mem pos out junk H Hp) as (mem' & E & P). rewrite E. cbn [bind fst snd]. eexists _, 0%nat. split; [reflexivity|]. rewrite Nat.add_0_r, app_nil_r. split; [exact P | lia].
Qed.

Lemma hex_print : forall size pos d mem n out, (pos < size)%nat -> (pos + n <= size)%nat -> printed size mem (pos + n) out ->
  exists mem' n', hexdump mem pos (size - pos) n d = Ok (mem', n') /\ printed size mem' (pos + n') (out ++ flat_map hex d) /\ (pos + n' <= size)%nat.
Proof.
  intros size pos d. induction d as [|b r IH]; intros mem n out Hp Hn H; cbn [hexdump flat_map].
  - exists mem, n. split; [reflexivity|]. rewrite app_nil_r. split; assumption.
  - destruct (Nat.ltb_spec n (size - pos)) as [Hl|Hl].
    + replace (size - pos - n)%nat with (size - (pos + n))%nat by lia.
      destruct (safe_print size mem (pos + n) out (Text (hex b)) H) as (mem1 & n1 & E & P & L); [lia|]. rewrite E. cbn [bind fst snd]. cbn [text_of] in P.
      destruct (IH mem1 (n + n1)%nat (out ++ hex b) Hp) as (mem2 & n2 & E2 & P2 & L2); [lia | rewrite Nat.add_assoc; exact P|]. exists mem2, n2. split; [exact E2|].
      rewrite <- app_assoc in P2. split; [exact P2 | exact L2].
    + exists mem, n. split; [reflexivity|]. split; [|exact Hn]. apply printed_more; [exact H | lia].
Qed.

Lemma text_render : forall fail s, text_of (render fail s) = match fail with Some _ => [] | None => s end.
Proof. intros [|] s; reflexivity. Qed.

Definition unspec (a : option addr_arg) : Prop := match a with Some (ArgUnspec _) => True | _ => False end.
Definition addr_print (hide : bool) mem pos room (a : option addr_arg) iface (bind_address : bool) fail : res (bytes * Z) :=
  match a with
  | Some a => snprint_peer_address mem pos room a iface bind_address hide fail
  | None => do x <- snprintf_safe mem pos room (render fail str_null); Ok (fst x, Z.of_nat (snd x))
  end.

Lemma address_print : forall hide size mem pos out a iface ba fail s, printed size mem pos out -> (pos < size)%nat ->
  addr_text a iface ba hide fail = Some s ->
  exists mem' n, addr_print hide mem pos (size - pos) a iface ba fail = Ok (mem', Z.of_nat n) /\ printed size mem' (pos + n) (out ++ s) /\
    (pos + n <= size + 2)%nat /\ (~ unspec a \/ ba = true -> pos + n <= size)%nat.
Proof.
  intros hide size mem pos out a iface ba fail s H Hp Hs.
  assert (Safe : forall r, text_of r = s -> exists mem' n, (do x <- snprintf_safe mem pos (size - pos) r; Ok (fst x, Z.of_nat (snd x))) = Ok (mem', Z.of_nat n) /\
     printed size mem' (pos + n) (out ++ s) /\ (pos + n <= size + 2)%nat /\ (~ unspec a \/ ba = true -> pos + n <= size)%nat).
  { intros r Er. destruct (safe_print size mem pos out r H Hp) as (mem' & n & E & P & L). rewrite E. cbn [bind fst snd]. exists mem', n. split; [reflexivity|].
    rewrite Er in P. split; [exact P|]. split; [lia | intros _; exact L]. }
  assert (None' : s = [] -> exists mem' n, Ok (mem, 0%Z) = Ok (mem', Z.of_nat n) /\
     printed size mem' (pos + n) (out ++ s) /\ (pos + n <= size + 2)%nat /\ (~ unspec a \/ ba = true -> pos + n <= size)%nat).
  { intros ->. exists mem, 0%nat. split; [reflexivity|]. rewrite Nat.add_0_r, app_nil_r. split; [exact H|]. split; lia. }
  destruct a as [[port|ntop port|ntop ll ifn port|]|]; cbn [addr_print snprint_peer_address addr_text address_text] in *.
  - destruct ba.
    + apply Safe. rewrite text_render. destruct fail; congruence.
    + destruct fail as [junk|]; [discriminate|]. injection Hs as <-. cbn [render]. destruct (raw_print size mem pos out str_any H Hp) as (mem' & E & P & _). rewrite E. cbn [bind fst snd].
      exists mem', (length str_any). split; [reflexivity|]. split; [exact P|]. change (length str_any) with 3%nat. split; [lia|]. intros [X|X]; [exfalso; apply X; exact I | discriminate].
  - destruct (negb ba && hide); [|destruct ntop as [t|]].
    + apply Safe. rewrite text_render. destruct fail; congruence.
    + apply Safe. rewrite text_render. destruct fail; congruence.
    + apply None'. destruct fail; congruence.
  - destruct (negb ba && hide); [|destruct ntop as [t|]].
    + apply Safe. rewrite text_render. destruct fail; congruence.
    + destruct iface as [i|]; [apply Safe; rewrite text_render; destruct fail; congruence|].
      destruct ll; [|apply Safe; rewrite text_render; destruct fail; congruence]. destruct ifn as [i|]; apply Safe; rewrite text_render; destruct fail; congruence.
    + apply None'. destruct fail; congruence.
  - destruct fail; discriminate.
  - apply Safe. rewrite text_render. destruct fail; congruence.
Qed.

Lemma advance_ok : forall pos n, advance pos (Z.of_nat n) = Ok (pos + n)%nat.
Proof. intros pos n. unfold advance. replace (Z.of_nat pos + Z.of_nat n <? 0)%Z with false by lia. f_equal. lia. Qed.

(** What the conversions of the loop do, in one form *)
Lemma conversion_print : forall hide size d f args s args' mem pos out, conversion hide d args = Some (s, args') -> printed size mem pos out -> (pos < size)%nat ->
  exists mem' n, format_loop hide (37%N :: d :: f) args mem pos = format_loop hide f args' mem' (pos + n) /\ printed size mem' (pos + n) (out ++ s) /\
    (pos + n <= size + 2)%nat /\ (no_unspec args -> pos + n <= size)%nat /\ (no_unspec args -> no_unspec args').
Proof.
  intros hide size d f args s args' mem pos out Hc H Hp. cbn [format_loop]. pose proof H as (Hlen & _).
  replace (Nat.leb (length mem) pos) with false by (symmetry; apply Nat.leb_gt; lia). cbn [N.eqb Pos.eqb negb]. rewrite Hlen. unfold conversion in Hc.
  destruct (d =? 37)%N.
  { injection Hc as <- <-. destruct (safe_print size mem pos out (Text [37%N]) H Hp) as (mem' & n & E & P & L). rewrite E. cbn [bind fst snd]. exists mem', n.
    split; [reflexivity|]. split; [exact P|]. split; [lia|]. split; [intros _; exact L | tauto]. }
  destruct (simple_conv d).
  { destruct args as [|[r|data|a fail|a iface fail] args]; try discriminate. injection Hc as <- <-. destruct (safe_print size mem pos out r H Hp) as (mem' & n & E & P & L). rewrite E. cbn [bind fst snd].
    exists mem', n. split; [reflexivity|]. split; [exact P|]. split; [lia|]. split; [intros _; exact L | intros X; exact X]. }
  destruct (d =? 72)%N.
  { destruct args as [|[r|data|a fail|a iface fail] args]; try discriminate. injection Hc as <- <-.
    destruct (hex_print size pos data mem 0 out Hp) as (mem' & n & E & P & L); [lia | rewrite Nat.add_0_r; exact H|]. rewrite E. cbn [bind fst snd].
    exists mem', n. split; [reflexivity|]. split; [exact P|]. split; [lia|]. split; [intros _; exact L | intros X; exact X]. }
  destruct ((d =? 73) || (d =? 66))%N eqn:Ed.
  - destruct args as [|[r|data|a fail|a iface fail] args]; try discriminate.
    destruct (addr_text a None (negb (d =? 73)%N) hide fail) as [t|] eqn:Et; cbn [option_map] in Hc; [|discriminate]. injection Hc as <- <-. cbn [orb].
    replace (d =? 76)%N with false by lia.
    destruct (address_print hide size mem pos out a None _ fail t H Hp Et) as (mem' & n & E & P & L1 & L2). unfold addr_print in E. rewrite E. cbn [bind fst snd]. rewrite advance_ok. cbn [bind].
    exists mem', n. split; [reflexivity|]. split; [exact P|]. split; [exact L1|]. cbn [no_unspec]. destruct a as [[]|]; (split; [intros X|intros X; try exact X]); try contradiction; apply L2; left; intros Y; exact Y.
  - destruct (d =? 76)%N eqn:Ed2; [|discriminate]. cbn [orb negb]. destruct args as [|[r|data|a fail|a iface fail] args]; try discriminate.
    destruct (addr_text a iface true hide fail) as [t|] eqn:Et; cbn [option_map] in Hc; [|discriminate]. injection Hc as <- <-.
    destruct (address_print hide size mem pos out a iface _ fail t H Hp Et) as (mem' & n & E & P & L1 & L2). unfold addr_print in E. rewrite E. cbn [bind fst snd]. rewrite advance_ok. cbn [bind].
    exists mem', n. split; [reflexivity|]. split; [exact P|]. split; [exact L1|]. cbn [no_unspec]. split; [intros X; apply L2; right; reflexivity | intros X; exact X].
Qed.

Lemma loop_print : forall k hide size fmt args mem pos out rest, (length fmt <= k)%nat -> printed size mem pos out -> (pos <= size + 2)%nat -> expand hide fmt args = Some rest ->
  exists mem' n, format_loop hide fmt args mem pos = Ok (mem', Some n) /\ printed size mem' n (out ++ rest) /\ (n <= size + 2)%nat /\
    (no_unspec args -> pos <= size -> n <= size)%nat /\ (n < size -> exists r, mem' = out ++ rest ++ 0%N :: r)%nat.
Proof.
  intros k. induction k as [|k IH]; intros hide size fmt args mem pos out rest Hk H Hp He.
  all: destruct fmt as [|c f]; [|].
  1, 3: cbn [expand] in He; injection He as <-; cbn [format_loop]; rewrite app_nil_r; pose proof H as (H1 & H2 & H3);
    destruct (Nat.ltb_spec pos (length mem)) as [Hl|Hl].
  1, 3: rewrite write_ok by (cbn [length]; lia); cbn [bind]; eexists _, _; split; [reflexivity|]; rewrite H1 in Hl; destruct (H2 Hl) as [H4 H5]; cbn [length app];
    split; [split; [rewrite app_length; cbn [length]; rewrite firstn_length, skipn_length; lia|]; split; [|lia]; intros _; split; [exact H4|];
            rewrite firstn_app, firstn_firstn, firstn_length, Nat.min_id; replace (pos - Nat.min pos (length mem))%nat with 0%nat by lia; cbn [firstn]; rewrite app_nil_r; exact H5|];
    split; [exact Hp|]; split; [lia|]; intros _; rewrite H5; eexists; reflexivity.
  1, 2: cbn [bind]; exists mem, pos; split; [reflexivity|]; split; [exact H|]; split; [exact Hp|]; split; [lia|]; lia.
  - cbn [length] in Hk. lia.
  - cbn [length] in Hk. destruct (Nat.leb_spec (length mem) pos) as [Hfull|Hroom].
    { exists mem, pos. cbn [format_loop]. replace (Nat.leb (length mem) pos) with true by (symmetry; apply Nat.leb_le; exact Hfull). split; [reflexivity|].
      pose proof H as (H1 & _). split; [apply printed_more; [exact H | lia]|]. split; [exact Hp|]. split; [intros _ X; exact X | lia]. }
    pose proof H as (H1 & H2 & _). rewrite H1 in Hroom. destruct (N.eqb_spec c 37) as [->|Hc].
    + cbn [expand N.eqb Pos.eqb negb] in He. destruct f as [|d f]; [discriminate|]. destruct (conversion hide d args) as [[s args']|] eqn:Ec; [|discriminate].
      destruct (expand hide f args') as [rest'|] eqn:Ee; cbn [option_map] in He; [|discriminate]. injection He as <-.
      destruct (conversion_print hide size d f args s args' mem pos out Ec H Hroom) as (mem1 & n1 & E1 & P1 & L1 & U1 & V1).
      destruct (IH hide size f args' mem1 (pos + n1)%nat (out ++ s) rest') as (mem2 & n2 & E2 & P2 & L2 & U2 & F2); [cbn [length] in Hk; lia | exact P1 | exact L1 | exact Ee|].
      exists mem2, n2. split; [exact (eq_trans E1 E2)|]. rewrite <- app_assoc in P2. split; [exact P2|]. split; [exact L2|]. split; [intros X Y; apply U2; [exact (V1 X) | exact (U1 X)]|].
      intros X. destruct (F2 X) as (r & F). exists r. rewrite F, <- !app_assoc. reflexivity.
    + cbn [expand] in He. replace (c =? 37)%N with false in He by lia. cbn [negb] in He. destruct (expand hide f args) as [rest'|] eqn:Ee; cbn [option_map] in He; [|discriminate]. injection He as <-.
      cbn [format_loop]. replace (Nat.leb (length mem) pos) with false by (symmetry; apply Nat.leb_gt; lia). replace (c =? 37)%N with false by lia. cbn [negb].
      rewrite write_ok by (cbn [length]; lia). cbn [bind length]. destruct (H2 Hroom) as [H4 H5].
      destruct (IH hide size f args (firstn pos mem ++ [c] ++ skipn (pos + 1) mem) (S pos) (out ++ [c]) rest') as (mem2 & n2 & E2 & P2 & L2 & U2 & F2); [lia | | lia | exact Ee|].
      { assert (Lm : length (firstn pos mem ++ [c] ++ skipn (pos + 1) mem) = size) by (rewrite !app_length; cbn [length]; rewrite firstn_length, skipn_length; lia).
        assert (Lf : length (firstn pos mem) = pos) by (rewrite firstn_length; lia).
        split; [exact Lm|]. split; intros X.
        - split; [rewrite app_length; cbn [length]; lia|]. replace (S pos) with (pos + 1)%nat by lia. rewrite firstn_written by exact Lf. rewrite H5. reflexivity.
        - split; [rewrite app_length; cbn [length]; lia|]. replace (size - 1)%nat with (pos + 0)%nat by lia. rewrite firstn_written by exact Lf. rewrite H5. cbn [firstn].
          rewrite app_nil_r, Nat.add_0_r, <- H4, firstn_app, firstn_all, Nat.sub_diag. cbn [firstn]. rewrite app_nil_r. reflexivity. }
      exists mem2, n2. split; [exact E2|]. rewrite <- app_assoc in P2. split; [exact P2|]. split; [exact L2|]. split; [intros X Y; apply U2; [exact X | lia]|].
      intros X. destruct (F2 X) as (r & F). exists r. rewrite F, <- !app_assoc. reflexivity.
Qed.

Lemma cstr_app : forall s r, string s -> cstr (s ++ 0%N :: r) = Some s.
Proof.
  intros s r. induction s as [|b s IH]; intros Hs; cbn [app cstr]; [reflexivity|]. destruct (N.eqb_spec b 0) as [->|]; [exfalso; apply Hs; left; reflexivity|].
  rewrite IH; [reflexivity|]. intros X. apply Hs. right. exact X.
Qed.
Lemma string_firstn : forall n s, string s -> string (firstn n s).
Proof. intros n s H X. apply H. rewrite <- (firstn_skipn n s). apply in_or_app. left. exact X. Qed.

Lemma vsnprintf_ok : forall hide mem fmt args out, (0 < length mem)%nat -> expand hide fmt args = Some out ->
  exists mem' n, fastd_vsnprintf hide mem fmt args = Ok (mem', Some n) /\ printed (length mem) mem' n out /\ (n <= length mem + 2)%nat /\
    (no_unspec args -> n <= length mem)%nat /\ (n < length mem -> exists r, mem' = out ++ 0%N :: r)%nat.
Proof.
  intros hide mem fmt args out Hm He. unfold fastd_vsnprintf. rewrite write_ok by (cbn [length]; lia). cbn [bind firstn app].
  assert (L1 : length (0%N :: skipn (0 + length [0%N]) mem) = length mem) by (cbn [length]; rewrite skipn_length; lia).
  destruct (loop_print (length fmt) hide (length mem) fmt args (0%N :: skipn (0 + length [0%N]) mem) 0 [] out) as (mem' & n & E & P & L & U & F).
  - lia.
  - split; [exact L1|]. split; [intros _; split; reflexivity | lia].
  - lia.
  - exact He.
  - exists mem', n. split; [exact E|]. split; [exact P|]. split; [exact L|]. split; [intros X; apply U; [exact X | lia] | exact F].
Qed.

Lemma vsnprintf_bounds : forall hide mem fmt args out, (0 < length mem)%nat -> expand hide fmt args = Some out ->
  exists mem' n, fastd_vsnprintf hide mem fmt args = Ok (mem', Some n) /\ length mem' = length mem /\
    (n <= length mem + 2)%nat /\ (no_unspec args -> n <= length mem)%nat /\
    (length out < length mem -> n = length out /\ exists r, mem' = out ++ 0%N :: r)%nat /\
    (length mem <= length out -> length mem <= n /\ firstn (length mem - 1) mem' = firstn (length mem - 1) out)%nat.
Proof.
  intros hide mem fmt args out Hm He. destruct (vsnprintf_ok hide mem fmt args out Hm He) as (mem' & n & E & (P1 & P2 & P3) & L & U & F).
  exists mem', n. split; [exact E|]. split; [exact P1|]. split; [exact L|]. split; [exact U|].
  destruct (Nat.lt_ge_cases n (length mem)) as [Hn|Hn].
  - destruct (P2 Hn) as [X Y]. split; [intros _; split; [lia | exact (F Hn)] | lia].
  - destruct (P3 Hn) as [X Y]. split; [lia | intros _; split; assumption].
Qed.

Lemma logf_ok : forall hide mem fmt args out, length mem = 1024%nat -> expand hide fmt args = Some out -> string out ->
  exists mem', logf_buffer hide mem fmt args = Ok mem' /\ length mem' = 1024%nat /\ cstr mem' = Some (firstn 1023 out).
Proof.
  intros hide mem fmt args out Hm He Hs. destruct (vsnprintf_bounds hide mem fmt args out) as (mem' & n & E & L & _ & _ & Sm & Bg); [lia | exact He|].
  unfold logf_buffer. rewrite E. cbn [bind fst]. rewrite write_ok by (cbn [length]; lia). eexists. split; [reflexivity|].
  assert (Lf : length (firstn 1023 mem') = 1023%nat) by (rewrite firstn_length; lia).
  split; [rewrite !app_length, Lf, skipn_length; cbn [length]; lia|].
  destruct (Nat.lt_ge_cases (length out) (length mem)) as [Ho|Ho].
  - destruct (Sm Ho) as [_ (r & Er)]. rewrite (@firstn_all2 _ _ out) by lia.
    destruct (Nat.eq_dec (length out) 1023) as [He1|Hne].
    + assert (X : firstn 1023 mem' = out) by (rewrite Er, <- He1, firstn_app, firstn_all, Nat.sub_diag; cbn [firstn]; apply app_nil_r). rewrite X. cbn [app]. apply cstr_app. exact Hs.
    + rewrite Er, firstn_app. rewrite (@firstn_all2 _ _ out) by lia. destruct (1023 - length out)%nat as [|q] eqn:Eq; [lia|]. cbn [firstn]. rewrite <- app_assoc. cbn [app]. apply cstr_app. exact Hs.
  - destruct (Bg Ho) as [_ Y]. rewrite Hm in Y. change (1024 - 1)%nat with 1023%nat in Y. rewrite Y. cbn [app]. apply cstr_app. apply string_firstn. exact Hs.
Qed.

(** ** Interface names *)

Lemma name_print : forall (mem s : bytes), length mem = IFNAMSIZ -> string s ->
  exists mem', vsnprintf mem 0 IFNAMSIZ (Text s) = Ok (mem', Some (length s)) /\ length mem' = IFNAMSIZ /\ cstr mem' = Some (firstn 15 s).
Proof.
  intros mem s Hm Hs. unfold vsnprintf. change (Nat.eqb IFNAMSIZ 0) with false. cbn iota. change (IFNAMSIZ - 1)%nat with 15%nat.
  assert (L : (length (firstn 15 s) <= 15)%nat) by (rewrite firstn_length; lia).
  unfold IFNAMSIZ in *. assert (E : write_at mem 0 (firstn 15 s ++ [0%N]) = Ok (firstn 0 mem ++ (firstn 15 s ++ [0%N]) ++ skipn (0 + length (firstn 15 s ++ [0%N])) mem))
    by (apply write_ok; rewrite app_length; cbn [length]; lia).
  pose proof (write_len _ _ _ _ E) as Lw. rewrite E. cbn [bind]. eexists. split; [reflexivity|]. split; [congruence|].
  rewrite firstn_O. cbn [app]. rewrite <- app_assoc. cbn [app]. apply cstr_app. apply string_firstn. exact Hs.
Qed.
Lemma name_copy : forall (mem s : bytes), length mem = IFNAMSIZ -> string s ->
  exists mem', (do mem <- write_at mem 0 (firstn (IFNAMSIZ - 1) (s ++ repeat 0%N (IFNAMSIZ - 1))); do mem <- write_at mem (IFNAMSIZ - 1) [0%N]; Ok (mem, true)) = Ok (mem', true) /\
    length mem' = IFNAMSIZ /\ cstr mem' = Some (firstn 15 s).
Proof.
  intros mem s Hm Hs. unfold IFNAMSIZ in *. change (16 - 1)%nat with 15%nat.
  assert (L : length (firstn 15 (s ++ repeat 0%N 15)) = 15%nat) by (rewrite firstn_length, app_length, repeat_length; lia).
  rewrite write_ok by lia. cbn [bind]. rewrite firstn_O. cbn [app].
  assert (L2 : length (firstn 15 (s ++ repeat 0%N 15) ++ skipn (0 + length (firstn 15 (s ++ repeat 0%N 15))) mem) = 16%nat) by (rewrite app_length, skipn_length; lia).
  rewrite write_ok by (cbn [length]; rewrite L2; lia). cbn [bind]. eexists. split; [reflexivity|].
  assert (F : firstn 15 (firstn 15 (s ++ repeat 0%N 15) ++ skipn (0 + length (firstn 15 (s ++ repeat 0%N 15))) mem) = firstn 15 (s ++ repeat 0%N 15)).
  { rewrite firstn_app, L, Nat.sub_diag, firstn_O, app_nil_r, firstn_firstn. reflexivity. }
  split; [rewrite !app_length, F, skipn_length, L2, L; cbn [length]; lia|]. rewrite F.
  destruct (Nat.lt_ge_cases (length s) 15) as [X|X].
  - rewrite firstn_app. rewrite (@firstn_all2 _ _ s) by lia. destruct (15 - length s)%nat as [|q] eqn:Eq; [lia|]. change (repeat 0%N 15) with (0%N :: repeat 0%N 14). rewrite firstn_cons.
    rewrite <- app_assoc. cbn [app]. apply cstr_app. exact Hs.
  - rewrite firstn_app. replace (15 - length s)%nat with 0%nat by lia. rewrite firstn_O, app_nil_r. cbn [app]. apply cstr_app. apply string_firstn. exact Hs.
Qed.

Lemma split_in : forall s p r, split_percent s = Some (p, r) -> s = p ++ 37%N :: r.
Proof.
  intros s. induction s as [|c s IH]; intros p r H; cbn [split_percent] in H; [discriminate|]. destruct (N.eqb_spec c 37) as [->|]; [injection H as <- <-; reflexivity|].
  destruct (split_percent s) as [[p' r']|]; cbn [option_map fst snd] in H; [|discriminate]. injection H as <- <-. rewrite (IH p' r' eq_refl). reflexivity.
Qed.
Lemma hex_string : forall d, string (flat_map hex d).
Proof.
  intros d X. apply in_flat_map in X. destruct X as (b & _ & X). unfold hex, hex_digit in X. cbn [In] in X. 
  destruct X as [X|[X|[]]]; revert X; [destruct (b / 16 <? 10)%N | destruct (b mod 16 <? 10)%N]; lia.
Qed.

Lemma name_ok : forall mem conf_ifname single peer s, length mem = IFNAMSIZ -> pattern_of conf_ifname single peer = Some s -> ifname_valid s = true -> string s ->
  (forall p n, peer = Some p -> i_name p = Some n -> string n) ->
  match (match peer with Some p => name_text p s | None => match split_percent s with None => Some s | Some _ => None end end) with
  | Some t => exists mem', format_name mem conf_ifname single peer = Ok (mem', true) /\ length mem' = IFNAMSIZ /\ cstr mem' = Some (firstn 15 t)
  | None => format_name mem conf_ifname single peer = Ok (mem, false)
  end.
Proof.
  intros mem conf_ifname single peer s Hm Hp Hv Hs Hn. unfold format_name. fold (pattern_of conf_ifname single peer). rewrite Hp.
  unfold name_text, ifname_valid in *. destruct (split_percent s) as [[prefix rest]|] eqn:Es.
  2: { destruct peer; apply name_copy; assumption. }
  pose proof (split_in _ _ _ Es) as Esplit.
  assert (Sp : string prefix) by (intros X; apply Hs; rewrite Esplit; apply in_or_app; left; exact X).
  assert (Sr : string rest) by (intros X; apply Hs; rewrite Esplit; apply in_or_app; right; right; exact X).
  destruct peer as [p|]; [|reflexivity]. apply andb_true_iff in Hv. destruct Hv as [_ Hv]. destruct rest as [|c r]; [discriminate|].
  apply andb_true_iff in Hv. destruct Hv as [_ Hv]. cbn [hd tl].
  assert (Pr : forall t, string t -> exists mem', (do x <- vsnprintf mem 0 IFNAMSIZ (Text (prefix ++ t ++ r)); Ok (fst x, true)) = Ok (mem', true) /\
     length mem' = IFNAMSIZ /\ cstr mem' = Some (firstn 15 (prefix ++ t ++ r))).
  { intros t Ht. destruct (name_print mem (prefix ++ t ++ r) Hm) as (mem' & E & L & C).
    - intros X. apply in_app_or in X. destruct X as [X|X]; [exact (Sp X)|]. apply in_app_or in X. destruct X as [X|X]; [exact (Ht X) | apply Sr; right; exact X].
    - exists mem'. rewrite E. cbn [bind fst]. split; [reflexivity|]. split; assumption. }
  apply orb_true_iff in Hv. destruct Hv as [Hv|Hv]; apply N.eqb_eq in Hv; subst c; cbn [N.eqb Pos.eqb].
  - destruct (i_name p) as [n|] eqn:En; [|reflexivity]. apply Pr. exact (Hn p n eq_refl En).
  - destruct (i_key p) as [k|] eqn:Ek; cbn [option_map]; [|reflexivity]. apply Pr. apply string_firstn. apply hex_string.
Qed.
Lemma name_none : forall mem conf_ifname single peer, length mem = IFNAMSIZ -> pattern_of conf_ifname single peer = None ->
  exists mem', format_name mem conf_ifname single peer = Ok (mem', true) /\ length mem' = IFNAMSIZ /\ cstr mem' = Some [].
Proof.
  intros mem conf_ifname single peer Hm Hp. unfold format_name. fold (pattern_of conf_ifname single peer). rewrite Hp. unfold IFNAMSIZ in *.
  rewrite write_ok by (cbn [length]; lia). cbn [bind]. eexists. split; [reflexivity|]. cbn [firstn app length Nat.add]. split; [rewrite skipn_length; lia | reflexivity].
Qed.

(** [snprintf_safe] alone *)
Lemma safe_bounds : forall (mem : bytes) pos room r, (0 < room)%nat -> (pos + room <= length mem)%nat ->
  exists mem' n, snprintf_safe mem pos room r = Ok (mem', n) /\ length mem' = length mem /\ (n <= room)%nat /\
    firstn pos mem' = firstn pos mem /\ skipn (pos + room) mem' = skipn (pos + room) mem /\
    match r with Text s => exists t, skipn pos mem' = firstn (room - 1) s ++ 0%N :: t | Failed _ => n = O end.
Proof.
  intros mem pos room r Hr Hm. unfold snprintf_safe, vsnprintf. destruct r as [s|junk].
  - replace (Nat.eqb room 0) with false by (symmetry; apply Nat.eqb_neq; lia).
    assert (L : (length (firstn (room - 1) s ++ [0%N]) <= room)%nat) by (rewrite app_length, firstn_length; cbn [length]; lia).
    rewrite write_ok by lia. cbn [bind fst snd]. eexists _, _. split; [reflexivity|].
    assert (Lf : length (firstn pos mem) = pos) by (rewrite firstn_length; lia).
    split; [rewrite !app_length, skipn_length, Lf; rewrite app_length in L; lia|]. split; [lia|].
    split; [rewrite firstn_app, firstn_firstn, Lf, Nat.min_id, Nat.sub_diag, firstn_O, app_nil_r; reflexivity|].
    split.
    + rewrite skip_skip. rewrite skipn_app, Lf, Nat.sub_diag, (skipn_all2 (firstn pos mem)) by lia. cbn [app skipn]. rewrite skipn_app.
      rewrite (skipn_all2 (firstn (room - 1) s ++ [0%N])) by lia. cbn [app]. rewrite <- skip_skip. f_equal. lia.
    + rewrite skipn_app, Lf, Nat.sub_diag, (skipn_all2 (firstn pos mem)) by lia. cbn [app skipn]. rewrite <- app_assoc. cbn [app]. eexists. reflexivity.
  - assert (L : (length (firstn room junk) <= room)%nat) by (rewrite firstn_length; lia).
    rewrite write_ok by lia. cbn [bind fst snd]. eexists _, _. split; [reflexivity|].
    assert (Lf : length (firstn pos mem) = pos) by (rewrite firstn_length; lia).
    split; [rewrite !app_length, skipn_length, Lf; lia|]. split; [lia|].
    split; [rewrite firstn_app, firstn_firstn, Lf, Nat.min_id, Nat.sub_diag, firstn_O, app_nil_r; reflexivity|].
    split; [|reflexivity]. rewrite skip_skip. rewrite skipn_app, Lf, Nat.sub_diag, (skipn_all2 (firstn pos mem)) by lia. cbn [app skipn]. rewrite skipn_app.
    rewrite (skipn_all2 (firstn room junk)) by lia. cbn [app]. rewrite <- skip_skip. f_equal. lia.
Qed.
