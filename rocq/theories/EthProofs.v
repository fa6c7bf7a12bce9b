(** Proofs about Ethernet addresses *)
From Coq Require Import Sorted.
From Verif Require Import Base BufferModel EthModel EthSpec.

(** ** memcmp is an order on byte strings of equal length *)
Lemma memcmp_eq : forall a b, length a = length b -> memcmp a b = Eq <-> a = b.
Proof.
  intros a. induction a as [|x a IH]; intros b H; destruct b as [|y b]; try discriminate H; [split; reflexivity|]. cbn [memcmp length] in *.
  destruct (N.compare_spec x y) as [->|L|L].
  - rewrite IH by lia. split; [intros ->; reflexivity | intros E; injection E as ->; reflexivity].
  - split; [discriminate | intros E; injection E as -> _; lia].
  - split; [discriminate | intros E; injection E as -> _; lia].
Qed.
Lemma memcmp_opp : forall a b, memcmp b a = CompOpp (memcmp a b).
Proof.
  intros a. induction a as [|x a IH]; intros b; destruct b as [|y b]; try reflexivity. cbn [memcmp]. rewrite N.compare_antisym. destruct (N.compare x y); cbn [CompOpp]; [apply IH | reflexivity | reflexivity].
Qed.
Lemma memcmp_trans : forall a b c, length a = length b -> length b = length c -> memcmp a b = Lt -> memcmp b c = Lt -> memcmp a c = Lt.
Proof.
  intros a. induction a as [|x a IH]; intros b c H1 H2 A B; destruct b as [|y b]; destruct c as [|z c]; try discriminate. cbn [memcmp length] in *.
  destruct (N.compare_spec x y) as [->|L|L]; try discriminate A.
  - destruct (N.compare_spec y z) as [->|M|M]; try discriminate B; [apply (IH b); [lia | lia | exact A | exact B] | reflexivity].
  - destruct (N.compare_spec y z) as [->|M|M]; try discriminate B.
    + apply N.compare_lt_iff in L. rewrite L. reflexivity.
    + assert (X : (x < z)%N) by lia. apply N.compare_lt_iff in X. rewrite X. reflexivity.
Qed.
Lemma memcmp_refl : forall a, memcmp a a = Eq. Proof. intros a. apply memcmp_eq; reflexivity. Qed.

(** ** Sorted vectors *)
Definition before (e1 e2 : entry) : Prop := memcmp (e_addr e1) (e_addr e2) = Lt.
Definition len6 (v : list entry) : Prop := Forall (fun e => length (e_addr e) = 6) v.
Definition ordered (v : list entry) : Prop := StronglySorted before v /\ len6 v.

Lemma nth_before : forall v i j e f, StronglySorted before v -> i < j -> nth_error v i = Some e -> nth_error v j = Some f -> before e f.
Proof.
  intros v. induction v as [|x v IH]; intros i j e f Hs Hij Hi Hj; [destruct i; discriminate|]. apply StronglySorted_inv in Hs. destruct Hs as [Hs Hx].
  destruct j as [|j]; [lia|]. destruct i as [|i]; cbn [nth_error] in *; [|apply (IH i j); [exact Hs | lia | exact Hi | exact Hj]].
  injection Hi as <-. rewrite Forall_forall in Hx. apply Hx. exact (nth_error_In _ _ Hj).
Qed.
Lemma nth_len6 : forall v i e, len6 v -> nth_error v i = Some e -> length (e_addr e) = 6.
Proof. intros v i e H Hi. unfold len6 in H. rewrite Forall_forall in H. apply H. exact (nth_error_In _ _ Hi). Qed.

(** What the search finds *)
Definition lower (v : list entry) (a : bytes) (i : nat) : Prop := forall j e, j < i -> nth_error v j = Some e -> memcmp (e_addr e) a = Lt.
Definition upper (v : list entry) (a : bytes) (i : nat) : Prop := forall j e, i <= j -> nth_error v j = Some e -> memcmp a (e_addr e) = Lt.

Lemma mid_bounds : forall min max, min < max -> min <= min + (max - min) / 2 < max.
Proof. intros min max H. split; [lia|]. assert ((max - min) / 2 < max - min) by (apply Nat.div_lt; lia). lia. Qed.
Lemma mid_eq : forall l u, l <= u -> (l + u) / 2 = l + (u - l) / 2.
Proof. intros l u H. replace (l + u) with (u - l + l * 2) by lia. rewrite Nat.div_add by lia. lia. Qed.

Lemma step_lower : forall v a c e, ordered v -> length a = 6 -> nth_error v c = Some e -> memcmp a (e_addr e) = Gt -> lower v a (c + 1).
Proof.
  intros v a c e [Hs Hl] Ha Hc Hg j f Hj Hf. rewrite memcmp_opp in Hg. assert (Hec : memcmp (e_addr e) a = Lt) by (destruct (memcmp (e_addr e) a); try discriminate Hg; reflexivity).
  destruct (Nat.eq_dec j c) as [->|N]; [rewrite Hc in Hf; injection Hf as <-; exact Hec|].
  apply (memcmp_trans _ (e_addr e)); [rewrite (nth_len6 v j f Hl Hf), (nth_len6 v c e Hl Hc); reflexivity | rewrite (nth_len6 v c e Hl Hc), Ha; reflexivity | | exact Hec].
  apply (nth_before v j c f e Hs); [lia | exact Hf | exact Hc].
Qed.
Lemma step_upper : forall v a c e, ordered v -> length a = 6 -> nth_error v c = Some e -> memcmp a (e_addr e) = Lt -> upper v a c.
Proof.
  intros v a c e [Hs Hl] Ha Hc Hlt j f Hj Hf. destruct (Nat.eq_dec j c) as [->|N]; [rewrite Hc in Hf; injection Hf as <-; exact Hlt|].
  apply (memcmp_trans _ (e_addr e)); [rewrite (nth_len6 v c e Hl Hc), Ha; reflexivity | rewrite (nth_len6 v j f Hl Hf), (nth_len6 v c e Hl Hc); reflexivity | exact Hlt|].
  apply (nth_before v c j e f Hs); [lia | exact Hc | exact Hf].
Qed.

Lemma add_search_spec : forall fuel v a min max, ordered v -> length a = 6 -> max <= length v -> min <= max -> max - min <= fuel -> lower v a min -> upper v a max ->
  (exists i e, add_search fuel v a min max = Ok (i, true) /\ nth_error v i = Some e /\ e_addr e = a) \/
  (exists i, add_search fuel v a min max = Ok (i, false) /\ i <= length v /\ lower v a i /\ upper v a i).
Proof.
  intros fuel. induction fuel as [|fuel IH]; intros v a min max Ho Ha Hm Hmm Hf Hlo Hup; cbn [add_search].
  - destruct (Nat.ltb_spec min max) as [X|X]; [lia|]. right. exists min. assert (min = max) by lia. subst max. split; [reflexivity|]. split; [lia|]. split; assumption.
  - destruct (Nat.ltb_spec min max) as [X|X]; [|right; exists min; assert (min = max) by lia; subst max; split; [reflexivity|]; split; [lia|]; split; assumption].
    pose proof (mid_bounds min max X) as [B1 B2]. set (cur := min + (max - min) / 2) in *. clearbody cur.
    destruct (nth_error v cur) as [e|] eqn:E; [|apply nth_error_None in E; lia]. destruct (memcmp a (e_addr e)) eqn:C.
    + left. exists cur, e. split; [reflexivity|]. split; [exact E|]. symmetry. apply memcmp_eq; [rewrite (nth_len6 v cur e (proj2 Ho) E); exact Ha | exact C].
    + apply IH; try assumption; try lia. exact (step_upper v a cur e Ho Ha E C).
    + apply IH; try assumption; try lia. exact (step_lower v a cur e Ho Ha E C).
Qed.
Lemma bsearch_spec : forall fuel v a l u, ordered v -> length a = 6 -> u <= length v -> l <= u -> u - l <= fuel -> lower v a l -> upper v a u ->
  (exists i e, bsearch fuel v a l u = Ok (Some e) /\ nth_error v i = Some e /\ e_addr e = a) \/
  (exists i, bsearch fuel v a l u = Ok None /\ lower v a i /\ upper v a i).
Proof.
  intros fuel. induction fuel as [|fuel IH]; intros v a min max Ho Ha Hm Hmm Hf Hlo Hup; cbn [bsearch].
  - destruct (Nat.ltb_spec min max) as [X|X]; [lia|]. right. exists min. assert (min = max) by lia. subst max. split; [reflexivity|]. split; assumption.
  - destruct (Nat.ltb_spec min max) as [X|X]; [|right; exists min; assert (min = max) by lia; subst max; split; [reflexivity|]; split; assumption].
    rewrite mid_eq by lia. pose proof (mid_bounds min max X) as [B1 B2]. set (cur := min + (max - min) / 2) in *. clearbody cur.
    destruct (nth_error v cur) as [e|] eqn:E; [|apply nth_error_None in E; lia]. destruct (memcmp a (e_addr e)) eqn:C.
    + left. exists cur, e. split; [reflexivity|]. split; [exact E|]. symmetry. apply memcmp_eq; [rewrite (nth_len6 v cur e (proj2 Ho) E); exact Ha | exact C].
    + apply IH; try assumption; try lia. exact (step_upper v a cur e Ho Ha E C).
    + apply IH; try assumption; try lia. exact (step_lower v a cur e Ho Ha E C).
Qed.

(** ** Lookup *)
Definition has_addr (a : bytes) (e : entry) : bool := if bytes_dec (e_addr e) a then true else false.
Definition lookup (v : list entry) (a : bytes) : option entry := find (has_addr a) v.

Lemma has_addr_true : forall a e, has_addr a e = true <-> e_addr e = a.
Proof. intros a e. unfold has_addr. destruct (bytes_dec (e_addr e) a); split; congruence. Qed.
Lemma lookup_in : forall v a e, lookup v a = Some e -> In e v /\ e_addr e = a.
Proof. intros v a e H. apply find_some in H. rewrite has_addr_true in H. exact H. Qed.
Lemma lookup_none : forall v a, (forall e, In e v -> e_addr e <> a) -> lookup v a = None.
Proof.
  intros v a H. unfold lookup. destruct (find (has_addr a) v) eqn:E; [|reflexivity]. apply lookup_in in E. exfalso. exact (H e (proj1 E) (proj2 E)).
Qed.
Lemma ordered_unique : forall v e f, StronglySorted before v -> In e v -> In f v -> e_addr e = e_addr f -> e = f.
Proof.
  intros v. induction v as [|x v IH]; intros e f Hs He Hf Ea; [contradiction|]. apply StronglySorted_inv in Hs. destruct Hs as [Hs Hx]. rewrite Forall_forall in Hx.
  destruct He as [->|He], Hf as [->|Hf]; [reflexivity | | | exact (IH e f Hs He Hf Ea)].
  - specialize (Hx f Hf). unfold before in Hx. rewrite Ea, memcmp_refl in Hx. discriminate.
  - specialize (Hx e He). unfold before in Hx. rewrite Ea, memcmp_refl in Hx. discriminate.
Qed.
Lemma lookup_some : forall v e, StronglySorted before v -> In e v -> lookup v (e_addr e) = Some e.
Proof.
  intros v e Hs He. unfold lookup. destruct (find (has_addr (e_addr e)) v) as [f|] eqn:E.
  - apply find_some in E. destruct E as [E1 E2]. apply has_addr_true in E2. f_equal. exact (ordered_unique v f e Hs E1 He E2).
  - exfalso. pose proof (find_none _ _ E e He) as X. pose proof (proj2 (has_addr_true (e_addr e) e) eq_refl). congruence.
Qed.
Lemma bounds_none : forall v a i, lower v a i -> upper v a i -> lookup v a = None.
Proof.
  intros v a i Hlo Hup. apply lookup_none. intros e He E. apply In_nth_error in He. destruct He as [j Hj]. destruct (Nat.lt_ge_cases j i) as [X|X].
  - specialize (Hlo j e X Hj). rewrite E, memcmp_refl in Hlo. discriminate.
  - specialize (Hup j e X Hj). rewrite E, memcmp_refl in Hup. discriminate.
Qed.
Lemma lower_0 : forall v a, lower v a 0. Proof. intros v a j e H. lia. Qed.
Lemma upper_len : forall v a, upper v a (length v).
Proof. intros v a j e H Hj. apply nth_error_None in H. congruence. Qed.

Lemma eth_find_spec : forall v a, ordered v -> length a = 6 -> eth_find v a = Ok (lookup v a).
Proof.
  intros v a Ho Ha. unfold eth_find. destruct (bsearch_spec (length v) v a 0 (length v)) as [(i & e & E & Hi & <-)|(i & E & Hlo & Hup)]; try assumption; try lia; try apply lower_0; try apply upper_len.
  - rewrite E. f_equal. symmetry. apply lookup_some; [apply Ho | exact (nth_error_In _ _ Hi)].
  - rewrite E. f_equal. symmetry. exact (bounds_none v a i Hlo Hup).
Qed.

(** ** Changing vectors *)
Lemma sorted_app : forall l1 l2, StronglySorted before (l1 ++ l2) <-> StronglySorted before l1 /\ StronglySorted before l2 /\ (forall e f, In e l1 -> In f l2 -> before e f).
Proof.
  intros l1. induction l1 as [|x l1 IH]; intros l2; cbn [app].
  - split; [intros H; split; [constructor|]; split; [exact H | intros e f []] | intros (_ & H & _); exact H].
  - split.
    + intros H. apply StronglySorted_inv in H. destruct H as [H Hx]. apply IH in H. destruct H as (A & B & C). apply Forall_app in Hx. destruct Hx as [X1 X2]. rewrite Forall_forall in X2.
      split; [constructor; assumption|]. split; [exact B|]. intros e f [<-|He] Hf; [exact (X2 f Hf) | exact (C e f He Hf)].
    + intros (A & B & C). apply StronglySorted_inv in A. destruct A as [A Hx]. constructor; [apply IH; split; [exact A|]; split; [exact B|]; intros e f He Hf; apply C; [right; exact He | exact Hf]|].
      apply Forall_app. split; [exact Hx|]. apply Forall_forall. intros f Hf. apply C; [left; reflexivity | exact Hf].
Qed.
Lemma in_firstn_nth : forall (v : list entry) i e, In e (firstn i v) -> exists j, j < i /\ nth_error v j = Some e.
Proof.
  intros v. induction v as [|x v IH]; intros i e H; destruct i as [|i]; try contradiction. cbn [firstn In] in H. destruct H as [<-|H]; [exists 0; split; [lia | reflexivity]|].
  destruct (IH i e H) as (j & Hj & Hn). exists (S j). split; [lia | exact Hn].
Qed.
Lemma in_skipn_nth : forall (v : list entry) i e, In e (skipn i v) -> exists j, i <= j /\ nth_error v j = Some e.
Proof.
  intros v. induction v as [|x v IH]; intros i e H; destruct i as [|i]; try contradiction.
  - apply In_nth_error in H. destruct H as [j Hj]. exists j. split; [lia | exact Hj].
  - cbn [skipn] in H. destruct (IH i e H) as (j & Hj & Hn). exists (S j). split; [lia | exact Hn].
Qed.
Lemma find_app : forall (f : entry -> bool) l1 l2, find f (l1 ++ l2) = match find f l1 with Some x => Some x | None => find f l2 end.
Proof. intros f l1. induction l1 as [|x l1 IH]; intros l2; [reflexivity|]. cbn [app find]. destruct (f x); [reflexivity | apply IH]. Qed.

Lemma place : forall v l r e, ordered v -> length (e_addr e) = 6 ->
  (exists m, v = l ++ m ++ r /\ (forall x, In x m -> e_addr x = e_addr e)) ->
  (forall x, In x l -> memcmp (e_addr x) (e_addr e) = Lt) -> (forall x, In x r -> memcmp (e_addr e) (e_addr x) = Lt) ->
  ordered (l ++ e :: r) /\ (forall b, lookup (l ++ e :: r) b = if bytes_dec b (e_addr e) then Some e else lookup v b) /\
  (forall x, In x (l ++ e :: r) -> x = e \/ In x v).
Proof.
  intros v l r e [Hs Hl] He (m & -> & Hm) Hlt Hgt. pose proof Hs as Hs'. apply sorted_app in Hs'. destruct Hs' as (S1 & S2 & S3). apply sorted_app in S2. destruct S2 as (_ & S4 & S5).
  assert (L : len6 (l ++ e :: r)).
  { unfold len6 in *. rewrite !Forall_app in Hl. destruct Hl as (A & _ & B). apply Forall_app. split; [exact A|]. constructor; assumption. }
  assert (S : StronglySorted before (l ++ e :: r)).
  { apply sorted_app. split; [exact S1|]. split.
    - constructor; [exact S4|]. apply Forall_forall. exact Hgt.
    - intros x y Hx [<-|Hy]; [exact (Hlt x Hx)|]. apply S3; [exact Hx|]. apply in_or_app. right. exact Hy. }
  split; [split; assumption|]. split.
  - intros b. destruct (bytes_dec b (e_addr e)) as [->|N].
    + apply lookup_some; [exact S | apply in_or_app; right; left; reflexivity].
    + unfold lookup. rewrite !find_app. cbn [find]. destruct (find (has_addr b) l); [reflexivity|]. destruct (has_addr b e) eqn:Eb; [apply has_addr_true in Eb; congruence|].
      assert (Em : find (has_addr b) m = None). { destruct (find (has_addr b) m) as [x|] eqn:Ex; [|reflexivity]. apply find_some in Ex. destruct Ex as [E1 E2]. apply has_addr_true in E2. rewrite (Hm x E1) in E2. congruence. }
      rewrite Em. reflexivity.
  - intros x Hx. apply in_app_or in Hx. destruct Hx as [Hx|[<-|Hx]]; [right; apply in_or_app; left; exact Hx | left; reflexivity | right; apply in_or_app; right; apply in_or_app; right; exact Hx].
Qed.

Lemma eth_add_spec : forall v now p a, ordered v -> length a = 6 -> exists v', eth_add v now p a = Ok v' /\ ordered v' /\
  (forall b, lookup v' b = if bytes_dec b a then Some (mk_entry a p (now + ETH_ADDR_STALE_TIME)) else lookup v b) /\
  (forall x, In x v' -> x = mk_entry a p (now + ETH_ADDR_STALE_TIME) \/ In x v).
Proof.
  intros v now p a Ho Ha. unfold eth_add. set (e := mk_entry a p (now + ETH_ADDR_STALE_TIME)).
  destruct (add_search_spec (length v) v a 0 (length v)) as [(i & f & E & Hi & Ef)|(i & E & Hb & Hlo & Hup)]; try assumption; try lia; try apply lower_0; try apply upper_len; rewrite E; cbn [bind fst snd].
  - eexists. split; [reflexivity|]. unfold set_nth. apply (place v); [exact Ho | exact Ha | | |].
    + exists [f]. split; [|intros x [<-|[]]; exact Ef]. apply nth_error_split in Hi. destruct Hi as (l1 & l2 & -> & <-).
      rewrite firstn_app, firstn_all, Nat.sub_diag, firstn_O, app_nil_r. f_equal. cbn [app]. f_equal. rewrite skipn_app, skipn_all2 by lia. replace (S (length l1) - length l1) with 1 by lia. reflexivity.
    + intros x Hx. apply in_firstn_nth in Hx. destruct Hx as (j & Hj & Hn). cbn [e e_addr]. rewrite <- Ef. exact (nth_before v j i x f (proj1 Ho) Hj Hn Hi).
    + intros x Hx. apply in_skipn_nth in Hx. destruct Hx as (j & Hj & Hn). cbn [e e_addr]. rewrite <- Ef. exact (nth_before v i j f x (proj1 Ho) Hj Hi Hn).
  - unfold insert. destruct (Nat.leb_spec i (length v)) as [_|X]; [|lia]. eexists. split; [reflexivity|]. apply (place v); [exact Ho | exact Ha | | |].
    + exists []. split; [cbn [app]; rewrite firstn_skipn; reflexivity | intros x []].
    + intros x Hx. apply in_firstn_nth in Hx. destruct Hx as (j & Hj & Hn). exact (Hlo j x Hj Hn).
    + intros x Hx. apply in_skipn_nth in Hx. destruct Hx as (j & Hj & Hn). exact (Hup j x Hj Hn).
Qed.

(** ** Removing *)
Lemma compact_loop : forall drop done junk todo, 
  compact drop (length todo) (length (done ++ junk)) (length junk) (done ++ junk ++ todo) = Ok (done ++ filter (fun e => negb (drop e)) todo).
Proof.
  intros drop done junk todo. revert done junk. induction todo as [|e todo IH]; intros done junk.
  - cbn [length compact filter]. rewrite !app_nil_r. f_equal. rewrite app_length, Nat.add_sub. rewrite firstn_app, firstn_all, Nat.sub_diag, firstn_O. apply app_nil_r.
  - cbn [length compact]. assert (En : nth_error (done ++ junk ++ e :: todo) (length (done ++ junk)) = Some e).
    { rewrite app_assoc. rewrite nth_error_app2 by apply Nat.le_refl. rewrite Nat.sub_diag. reflexivity. }
    rewrite En. cbn [filter]. destruct (drop e) eqn:Ed; cbn [negb].
    + specialize (IH done (junk ++ [e])). rewrite !app_length in IH. cbn [length] in IH. rewrite <- !app_assoc in IH. cbn [app] in IH. rewrite app_length in *.
      replace (S (length done + length junk)) with (length done + (length junk + 1)) by lia. replace (S (length junk)) with (length junk + 1) by lia. exact IH.
    + destruct junk as [|j junk].
      * cbn [length Nat.eqb app]. specialize (IH (done ++ [e]) []). cbn [app length] in IH. rewrite !app_nil_r in *. rewrite app_length in IH. cbn [length] in IH. rewrite Nat.add_1_r in IH. rewrite <- !app_assoc in IH. exact IH.
      * assert (Ej : Nat.eqb (length (j :: junk)) 0 = false) by reflexivity. rewrite Ej.
        assert (Es : set_nth (done ++ (j :: junk) ++ e :: todo) (length (done ++ j :: junk) - length (j :: junk)) e = (done ++ [e]) ++ (junk ++ [e]) ++ todo).
        { rewrite app_length, Nat.add_sub. unfold set_nth. rewrite firstn_app, firstn_all, Nat.sub_diag, firstn_O, app_nil_r. rewrite skipn_app, skipn_all2 by lia. replace (S (length done) - length done) with 1 by lia.
          cbn [app skipn]. rewrite <- !app_assoc. reflexivity. }
        rewrite Es. specialize (IH (done ++ [e]) (junk ++ [e])).
        replace (S (length (done ++ j :: junk))) with (length ((done ++ [e]) ++ junk ++ [e])) by (rewrite !app_length; cbn [length]; lia).
        replace (length (j :: junk)) with (length (junk ++ [e])) by (rewrite app_length; cbn [length]; lia).
        rewrite IH. rewrite <- app_assoc. reflexivity.
Qed.
Lemma compact_filter : forall drop v, compact drop (length v) 0 0 v = Ok (filter (fun e => negb (drop e)) v).
Proof. intros drop v. exact (compact_loop drop [] [] v). Qed.

Lemma filter_ordered : forall g v, ordered v -> ordered (filter g v).
Proof.
  intros g v [Hs Hl]. split.
  - induction v as [|x v IH]; cbn [filter]; [constructor|]. apply StronglySorted_inv in Hs. destruct Hs as [Hs Hx]. inversion Hl as [|? ? _ Hl']; subst. specialize (IH Hs Hl'). destruct (g x); [|exact IH].
    constructor; [exact IH|]. rewrite Forall_forall in *. intros y Hy. apply filter_In in Hy. apply Hx. apply Hy.
  - unfold len6 in *. rewrite Forall_forall in *. intros y Hy. apply filter_In in Hy. apply Hl. apply Hy.
Qed.
Lemma filter_lookup : forall g v a, ordered v -> lookup (filter g v) a = match lookup v a with Some e => if g e then Some e else None | None => None end.
Proof.
  intros g v a Ho. destruct (lookup v a) as [e|] eqn:E.
  - apply lookup_in in E. destruct E as [E1 <-]. destruct (g e) eqn:Eg.
    + apply lookup_some; [apply filter_ordered; exact Ho | apply filter_In; split; assumption].
    + apply lookup_none. intros x Hx Ex. apply filter_In in Hx. destruct Hx as [Hx1 Hx2]. rewrite (ordered_unique v x e (proj1 Ho) Hx1 E1 Ex) in Hx2. congruence.
  - apply lookup_none. intros x Hx Ex. apply filter_In in Hx. destruct Hx as [Hx1 _]. rewrite <- Ex, (lookup_some v x (proj1 Ho) Hx1) in E. discriminate.
Qed.

(** ** The node and its specification *)
Record R (s : eth_node) (z : spec_node) : Prop := mk_R {
  r_now : m_now s = z_now z;
  r_peers : m_peers s = z_peers z;
  r_next : m_next s = z_next z;
  r_ord : ordered (m_eth s);
  r_map : forall a, length a = 6 -> z_map z a = match lookup (m_eth s) a with Some e => Some (e_peer e, e_to e) | None => None end;
  r_nodup : NoDup (map fst (m_peers s));
  r_ids : forall p b, In (p, b) (m_peers s) -> (p < m_next s)%N;
  r_own : forall e p, In e (m_eth s) -> e_peer e = Some p -> In (p, true) (m_peers s)
}.

Lemma established_in : forall l p, established l p = true <-> In (p, true) l.
Proof.
  intros l p. unfold established. rewrite existsb_exists. split.
  - intros ([q b] & Hq & E). cbn [fst snd] in E. apply andb_true_iff in E. destruct E as [E ->]. apply N.eqb_eq in E. subst q. exact Hq.
  - intros H. exists (p, true). split; [exact H|]. cbn [fst snd]. rewrite N.eqb_refl. reflexivity.
Qed.
Lemma set_est_map : forall b p l, set_established b p l = map (fun q => if N.eq_dec (fst q) p then (p, b) else q) l.
Proof. intros b p l. unfold set_established. apply map_ext. intros q. destruct (N.eqb_spec (fst q) p), (N.eq_dec (fst q) p); congruence. Qed.
Lemma set_est_fst : forall b p l, map fst (set_established b p l) = map fst l.
Proof. intros b p l. unfold set_established. rewrite map_map. apply map_ext. intros [q c]. cbn [fst]. destruct (N.eqb_spec q p); cbn [fst]; congruence. Qed.
Lemma set_est_in : forall b p l q c, In (q, c) (set_established b p l) <-> (q = p /\ c = b /\ In p (map fst l)) \/ (q <> p /\ In (q, c) l).
Proof.
  intros b p l q c. unfold set_established. rewrite !in_map_iff. split.
  - intros ([q' c'] & E & H). cbn [fst] in E. destruct (N.eqb_spec q' p) as [->|N].
    + injection E as <- <-. left. split; [reflexivity|]. split; [reflexivity|]. exists (p, c'). split; [reflexivity | exact H].
    + injection E as -> ->. right. split; assumption.
  - intros [(-> & -> & [q' c'] & E & H)|[N H]].
    + cbn [fst] in E. subst q'. exists (p, c'). cbn [fst]. rewrite N.eqb_refl. split; [reflexivity | exact H].
    + exists (q, c). cbn [fst]. destruct (N.eqb_spec q p); [contradiction|]. split; [reflexivity | exact H].
Qed.
Lemma is_unicast_unicast : forall a, is_unicast a = unicast a.
Proof.
  intros a. unfold is_unicast, unicast. generalize (nth 0 a 0%N). intros n. replace 1%N with (N.ones 1) by reflexivity. rewrite N.land_ones. change (2 ^ 1)%N with 2%N.
  destruct (N.even n) eqn:E.
  - apply N.even_spec in E. destruct E as [m ->]. apply N.eqb_eq. rewrite N.mul_comm. apply N.mod_mul. lia.
  - apply N.eqb_neq. intros X. apply N.mod_divide in X; [|lia]. destruct X as [m ->]. rewrite N.mul_comm, N.even_mul in E. discriminate.
Qed.

Lemma reset_R : forall s z p, R s z -> exists s', reset_peer s p = Ok s' /\ R s' (spec_reset z p) /\ m_peers s' = set_established false p (m_peers s).
Proof.
  intros s z p H. destruct H as [Hn Hp Hx Ho Hm Hd Hi Hw]. unfold reset_peer, eth_reset. rewrite compact_filter. cbn [bind]. eexists. split; [reflexivity|]. split; [|reflexivity].
  constructor; cbn [m_now m_eth m_peers m_next spec_reset z_now z_map z_peers z_next].
  - exact Hn.
  - rewrite set_est_map, Hp. reflexivity.
  - exact Hx.
  - apply filter_ordered. exact Ho.
  - intros a Ha. rewrite (filter_lookup _ _ a Ho), (Hm a Ha). destruct (lookup (m_eth s) a) as [e|]; [|reflexivity]. unfold is_peer. destruct (e_peer e) as [q|] eqn:Eq; [|cbn [negb]; rewrite Eq; reflexivity].
    destruct (N.eqb_spec q p), (N.eq_dec q p); try congruence; cbn [negb]; [reflexivity | rewrite Eq; reflexivity].
  - rewrite set_est_fst. exact Hd.
  - intros q b Hq. apply set_est_in in Hq. destruct Hq as [(-> & _ & Hq)|[_ Hq]]; [|exact (Hi q b Hq)]. apply in_map_iff in Hq. destruct Hq as ([q c] & <- & Hq). exact (Hi q c Hq).
  - intros e q He Eq. apply filter_In in He. destruct He as [He Hf]. apply set_est_in. right. split; [|exact (Hw e q He Eq)]. intros ->. unfold is_peer in Hf. rewrite Eq, N.eqb_refl in Hf. discriminate.
Qed.
Lemma learn_R : forall s z p a, R s z -> length a = 6 -> match p with Some p => In (p, true) (m_peers s) | None => True end -> unicast a = true ->
  exists s', learn s p a = Ok s' /\ R s' (spec_learn z p a) /\ m_peers s' = m_peers s.
Proof.
  intros s z p a H Ha Hq Hu. destruct H as [Hn Hp Hx Ho Hm Hd Hi Hw]. unfold learn.
  assert (Eb : match p with Some p => negb (established (m_peers s) p) | None => false end = false).
  { destruct p as [p|]; [|reflexivity]. apply established_in in Hq. rewrite Hq. reflexivity. }
  rewrite Eb. destruct (eth_add_spec (m_eth s) (m_now s) p a Ho Ha) as (v' & E & Ho' & Hl & Hin). rewrite E. cbn [bind]. eexists. split; [reflexivity|]. split; [|reflexivity]. unfold spec_learn. rewrite Hu.
  constructor; cbn [m_now m_eth m_peers m_next z_now z_map z_peers z_next]; try assumption.
  - intros b Hb. rewrite Hl. destruct (bytes_dec b a); [cbn [e_peer e_to]; rewrite Hn; reflexivity | apply Hm; exact Hb].
  - intros e q He Eq. destruct (Hin e He) as [->|He']; [|exact (Hw e q He' Eq)]. cbn [e_peer] in Eq. subst p. exact Hq.
Qed.
Lemma learn_if_R : forall s z p a, R s z -> length a = 6 -> match p with Some p => In (p, true) (m_peers s) | None => True end ->
  exists s', (if is_unicast a then learn s p a else Ok s) = Ok s' /\ R s' (spec_learn z p a) /\ m_peers s' = m_peers s.
Proof.
  intros s z p a H Ha Hq. rewrite is_unicast_unicast. destruct (unicast a) eqn:Hu; [exact (learn_R s z p a H Ha Hq Hu)|].
  exists s. split; [reflexivity|]. unfold spec_learn. rewrite Hu. split; [exact H | reflexivity].
Qed.

Lemma send_R : forall expired s z p, R s z -> In (p, true) (m_peers s) -> exists s', send expired s p = Ok (s', snd (deliver expired z [p])) /\ R s' (fst (deliver expired z [p])) /\ (forall q, q <> p -> established (m_peers s') q = established (m_peers s) q).
Proof.
  intros expired s z p H Hp. unfold send, deliver. apply established_in in Hp. rewrite Hp. cbn [negb filter fst snd]. destruct (existsb (N.eqb p) expired); cbn [negb fold_left].
  - destruct (reset_R s z p H) as (s' & E & HR & Hps). rewrite E. cbn [bind]. exists s'. split; [reflexivity|]. split; [exact HR|]. intros q Hq. rewrite Hps.
    apply eq_true_iff_eq. rewrite !established_in, set_est_in. split; [intros [(X & _)|[_ X]]; [contradiction | exact X] | intros X; right; split; assumption].
  - exists s. split; [reflexivity|]. split; [exact H | reflexivity].
Qed.
Lemma send_all_R : forall expired source l s z, R s z -> NoDup l ->
  let ds := filter (fun p => established (m_peers s) p && negb (is_source source p))%bool l in
  exists s', send_all expired source l s = Ok (s', snd (deliver expired z ds)) /\ R s' (fst (deliver expired z ds)).
Proof.
  intros expired source l. induction l as [|p l IH]; intros s z H Hd; cbn [send_all filter].
  - exists s. split; [reflexivity | exact H].
  - inversion Hd as [|? ? Hnin Hd']; subst. assert (Eo : opt_is source p = is_source source p) by reflexivity. rewrite Eo.
    destruct (is_source source p) eqn:Es; cbn [orb negb andb]; [rewrite andb_false_r; exact (IH s z H Hd')|]. rewrite andb_true_r.
    destruct (established (m_peers s) p) eqn:Ep; cbn [negb]; [|exact (IH s z H Hd')].
    apply established_in in Ep. destruct (send_R expired s z p H Ep) as (s1 & E1 & H1 & Hs1). rewrite E1. cbn [bind fst snd].
    destruct (IH s1 _ H1 Hd') as (s2 & E2 & H2). rewrite E2. cbn [bind fst snd].
    assert (Ef : filter (fun q => established (m_peers s1) q && negb (is_source source q))%bool l = filter (fun q => established (m_peers s) q && negb (is_source source q))%bool l).
    { apply filter_ext_in. intros q Hq. rewrite Hs1; [reflexivity|]. intros ->. contradiction. }
    rewrite Ef in *. exists s2. unfold deliver in *. cbn [fst snd filter] in *. destruct (existsb (N.eqb p) expired); cbn [negb fold_left app] in *; split; try reflexivity; exact H2.
Qed.
Lemma all_others_eq : forall s z source, R s z -> filter (fun p => established (m_peers s) p && negb (is_source source p))%bool (map fst (m_peers s)) = all_others z source.
Proof.
  intros s z source H. unfold all_others. rewrite <- (r_peers s z H). pose proof (r_nodup s z H) as Hd. generalize (fun p (b : bool) (X : In (p, b) (m_peers s)) => X). intros Hall.
  assert (G : forall l, (forall x, In x l -> In x (m_peers s)) -> filter (fun p => established (m_peers s) p && negb (is_source source p))%bool (map fst l) = map fst (filter (fun q => snd q && negb (is_source source (fst q)))%bool l)).
  { intros l. induction l as [|[p b] l IH]; intros Hl; [reflexivity|]. cbn [map filter fst snd]. assert (Eb : established (m_peers s) p = b).
    { assert (Hin : In (p, b) (m_peers s)) by (apply Hl; left; reflexivity). destruct b; [apply established_in; exact Hin|].
      destruct (established (m_peers s) p) eqn:Ee; [|reflexivity]. apply established_in in Ee. exfalso. clear - Hd Hin Ee. induction (m_peers s) as [|[q c] t IHt]; [contradiction|].
      cbn [map fst] in Hd. inversion Hd as [|? ? Hnin Hd']; subst. destruct Hin as [Hin|Hin], Ee as [Ee|Ee]; [congruence | | | exact (IHt Hd' Hin Ee)].
      - injection Hin as -> ->. apply Hnin. apply in_map_iff. exists (p, true). split; [reflexivity | exact Ee].
      - injection Ee as -> ->. apply Hnin. apply in_map_iff. exists (p, false). split; [reflexivity | exact Hin]. }
    rewrite Eb. rewrite IH by (intros x Hx; apply Hl; right; exact Hx). destruct (b && negb (is_source source p))%bool; reflexivity. }
  apply G. intros x Hx. exact Hx.
Qed.

Lemma len_dest : forall f : bytes, 14 <= length f -> length (firstn 6 f) = 6. Proof. intros f H. rewrite firstn_length. lia. Qed.
Lemma len_source : forall f : bytes, 14 <= length f -> length (firstn 6 (skipn 6 f)) = 6. Proof. intros f H. rewrite firstn_length, skipn_length. lia. Qed.

(** After learning: the frame is sent to its destinations *)
Lemma send_frame_R : forall expired s z f source, R s z -> 14 <= length f ->
  exists s', (if negb (is_unicast (dest_address f)) then send_all expired source (map fst (m_peers s)) s
    else
      do e <- eth_find (m_eth s) (dest_address f);
      match e with
      | None => send_all expired source (map fst (m_peers s)) s
      | Some e => match e_peer e with None => Ok (s, []) | Some d => if opt_is source d then Ok (s, []) else send expired s d end
      end) = Ok (s', snd (deliver expired z (dests z f source))) /\ R s' (fst (deliver expired z (dests z f source))).
Proof.
  intros expired s z f source H Hf. unfold dests, dest_address. rewrite is_unicast_unicast.
  assert (Hall : exists s', send_all expired source (map fst (m_peers s)) s = Ok (s', snd (deliver expired z (all_others z source))) /\ R s' (fst (deliver expired z (all_others z source)))).
  { rewrite <- (all_others_eq s z source H). apply send_all_R; [exact H | exact (r_nodup s z H)]. }
  destruct (unicast (firstn 6 f)); cbn [negb]; [|exact Hall]. pose proof (len_dest f Hf) as Hl. rewrite (eth_find_spec _ _ (r_ord s z H) Hl). cbn [bind]. rewrite (r_map s z H _ Hl).
  destruct (lookup (m_eth s) (firstn 6 f)) as [e|] eqn:Ee; [|exact Hall]. destruct (e_peer e) as [d|] eqn:Ed.
  - assert (Eo : opt_is source d = is_source source d) by reflexivity. rewrite Eo. destruct (is_source source d).
    + exists s. split; [reflexivity | exact H].
    + apply lookup_in in Ee. destruct Ee as [Ee _]. destruct (send_R expired s z d H (r_own s z H e d Ee Ed)) as (s' & E & H' & _). exists s'. split; assumption.
  - exists s. split; [reflexivity | exact H].
Qed.

Lemma step_R : forall e s z, R s z -> possible s e -> exists s', eth_step e s = Ok (s', snd (spec_step e z)) /\ R s' (fst (spec_step e z)).
Proof.
  intros e s z H Hpos. destruct e as [dt|fw p f expired|dest f expired|p|p| |p|]; cbn [eth_step spec_step fst snd].
  - eexists. split; [reflexivity|]. destruct H. constructor; cbn [m_now m_eth m_peers m_next z_now z_map z_peers z_next]; try assumption. congruence.
  - unfold handle_receive, spec_frame, ETH_HEADER. destruct (Nat.ltb_spec (length f) 14) as [X|X]; [exists s; split; [reflexivity | exact H]|].
    cbn [possible] in Hpos. destruct (learn_if_R s z (Some p) (source_address f) H (len_source f X) Hpos) as (s1 & E1 & H1 & P1). rewrite E1. cbn [bind]. unfold source_address in *.
    destruct fw; [|exists s1; split; [reflexivity | exact H1]]. unfold send_data, ETH_HEADER. destruct (Nat.ltb_spec (length f) 14) as [Y|_]; [lia|]. cbn [bind]. exact (send_frame_R expired s1 _ f (Some p) H1 X).
  - destruct dest as [d|].
    + unfold send_data. destruct (established (m_peers s) d) eqn:Ed.
      * assert (Ef : map fst (filter (fun q => N.eqb (fst q) d && snd q)%bool (z_peers z)) = [d]).
        { rewrite <- (r_peers s z H). pose proof (r_nodup s z H) as Hd. apply established_in in Ed. clear - Hd Ed. induction (m_peers s) as [|[q b] t IHt]; [contradiction|]. cbn [map fst filter snd] in *. inversion Hd as [|? ? Hn Hd']; subst.
          destruct Ed as [Ed|Ed].
          - injection Ed as -> ->. rewrite N.eqb_refl. cbn [andb map fst]. f_equal. assert (Ez : filter (fun q : N * bool => (fst q =? d)%N && snd q)%bool t = []).
            { clear - Hn. induction t as [|[q b] t IHt]; [reflexivity|]. cbn [filter fst snd map] in *. destruct (N.eqb_spec q d) as [->|]; [exfalso; apply Hn; left; reflexivity|]. cbn [andb]. apply IHt. intros X. apply Hn. right. exact X. }
            rewrite Ez. reflexivity.
          - destruct (N.eqb_spec q d) as [->|]; [exfalso; apply Hn; apply in_map_iff; exists (d, true); split; [reflexivity | exact Ed]|]. cbn [andb]. exact (IHt Ed Hd'). }
        rewrite Ef. apply established_in in Ed. destruct (send_R expired s z d H Ed) as (s' & E & H' & _). exists s'. split; assumption.
      * assert (Ef : map fst (filter (fun q => N.eqb (fst q) d && snd q)%bool (z_peers z)) = []).
        { rewrite <- (r_peers s z H). destruct (filter (fun q => N.eqb (fst q) d && snd q)%bool (m_peers s)) as [|q t] eqn:Eq; [reflexivity|]. exfalso. assert (Hin : In q (filter (fun q => N.eqb (fst q) d && snd q)%bool (m_peers s))) by (rewrite Eq; left; reflexivity).
          apply filter_In in Hin. destruct Hin as [H1 H2]. unfold established in Ed. assert (X : existsb (fun q => N.eqb (fst q) d && snd q)%bool (m_peers s) = true) by (apply existsb_exists; exists q; split; assumption). congruence. }
        rewrite Ef. unfold send. rewrite Ed. exists s. split; [reflexivity | exact H].
    + unfold send_data, spec_frame, ETH_HEADER. destruct (Nat.ltb_spec (length f) 14) as [X|X]; [exists s; split; [reflexivity | exact H]|].
      destruct (learn_if_R s z None (source_address f) H (len_source f X) I) as (s1 & E1 & H1 & P1). rewrite E1. cbn [bind]. unfold source_address in *. exact (send_frame_R expired s1 _ f None H1 X).
  - destruct (reset_R s z p H) as (s' & E & H' & _). rewrite E. exists s'. split; [reflexivity | exact H'].
  - eexists. split; [reflexivity|]. destruct H as [Hn Hp Hx Ho Hm Hd Hi Hw]. constructor; cbn [m_now m_eth m_peers m_next z_now z_map z_peers z_next]; try assumption.
    + rewrite set_est_map, Hp. reflexivity.
    + rewrite set_est_fst. exact Hd.
    + intros q b Hq. apply set_est_in in Hq. destruct Hq as [(-> & _ & Hq)|[_ Hq]]; [|exact (Hi q b Hq)]. apply in_map_iff in Hq. destruct Hq as ([q c] & <- & Hq). exact (Hi q c Hq).
    + intros e q He Eq. pose proof (Hw e q He Eq) as X. apply set_est_in. destruct (N.eq_dec q p) as [->|N]; [left; split; [reflexivity|]; split; [reflexivity|]; apply in_map_iff; exists (p, true); split; [reflexivity | exact X] | right; split; assumption].
  - eexists. split; [reflexivity|]. destruct H as [Hn Hp Hx Ho Hm Hd Hi Hw]. constructor; cbn [m_now m_eth m_peers m_next z_now z_map z_peers z_next]; try assumption.
    + rewrite Hp, Hx. reflexivity.
    + rewrite Hx. reflexivity.
    + rewrite map_app. cbn [map fst]. apply NoDup_rev in Hd. apply NoDup_rev in Hd. rewrite rev_involutive in Hd. clear - Hd Hi. assert (X : forall q, In q (map fst (m_peers s)) -> (q < m_next s)%N).
      { intros q Hq. apply in_map_iff in Hq. destruct Hq as ([q' c] & <- & Hq). exact (Hi q' c Hq). } clear Hi. induction (map fst (m_peers s)) as [|q t IHt]; cbn [app].
      * constructor; [intros [] | constructor].
      * inversion Hd as [|? ? Hn Hd']; subst. constructor; [|apply IHt; [exact Hd' | intros y Hy; apply X; right; exact Hy]]. intros Hin. apply in_app_or in Hin. destruct Hin as [Hin|[Hin|[]]]; [contradiction|]. specialize (X q (or_introl eq_refl)). lia.
    + intros q b Hq. apply in_app_or in Hq. destruct Hq as [Hq|[Hq|[]]]; [specialize (Hi q b Hq); lia | injection Hq as <- <-; lia].
    + intros e q He Eq. apply in_or_app. left. exact (Hw e q He Eq).
  - destruct (reset_R s z p H) as (s' & E & H' & _). unfold reset_peer, eth_reset in E. rewrite compact_filter in E. cbn [bind] in E. injection E as <-.
    unfold reset_peer, eth_reset. rewrite compact_filter. cbn [bind m_now m_eth m_peers m_next]. eexists. split; [reflexivity|]. destruct H' as [Hn Hp Hx Ho Hm Hd Hi Hw].
    constructor; cbn [m_now m_eth m_peers m_next z_now z_map z_peers z_next] in *; try assumption.
    + rewrite Hp. reflexivity.
    + clear - Hd. induction (set_established false p (m_peers s)) as [|[q b] t IHt]; [constructor|]. cbn [map fst filter] in *. inversion Hd as [|? ? Hn Hd']; subst. destruct (negb (N.eqb q p)); [|exact (IHt Hd')]. cbn [map fst]. constructor; [|exact (IHt Hd')].
      intros X. apply Hn. apply in_map_iff in X. destruct X as (x & E & X). apply filter_In in X. apply in_map_iff. exists x. split; [exact E | apply X].
    + intros q b Hq. apply filter_In in Hq. exact (Hi q b (proj1 Hq)).
    + intros e q He Eq. apply filter_In. split; [exact (Hw e q He Eq)|]. cbn [fst]. apply filter_In in He. destruct He as [_ He]. unfold is_peer in He. rewrite Eq in He. exact He.
  - unfold eth_cleanup. rewrite compact_filter. cbn [bind]. eexists. split; [reflexivity|]. destruct H as [Hn Hp Hx Ho Hm Hd Hi Hw]. constructor; cbn [m_now m_eth m_peers m_next z_now z_map z_peers z_next]; try assumption.
    + apply filter_ordered. exact Ho.
    + intros a Ha. rewrite (filter_lookup _ _ a Ho), (Hm a Ha). destruct (lookup (m_eth s) a) as [e|]; [|reflexivity]. unfold timed_out. rewrite Hn. destruct (Z.leb_spec (e_to e) (z_now z)) as [X|X], (Z_le_dec (e_to e) (z_now z)); try lia; reflexivity.
    + intros e q He Eq. apply filter_In in He. exact (Hw e q (proj1 He) Eq).
Qed.

Lemma init_R : R eth_init spec_init.
Proof.
  constructor; cbn [eth_init spec_init m_now m_eth m_peers m_next z_now z_map z_peers z_next]; try reflexivity; try (intros; contradiction).
  - split; constructor.
  - constructor.
Qed.

(** ** Runs *)
Lemma outs_R : forall h s z, R s z -> spec_possible h z -> eth_outs h s = Ok (spec_outs h z).
Proof.
  intros h. induction h as [|e h IH]; intros s z H Hp; [reflexivity|]. cbn [eth_outs spec_outs spec_possible] in *. destruct Hp as [Hp Hh].
  assert (Hpos : possible s e) by (destruct e; cbn [possible]; try exact I; rewrite (r_peers s z H); exact Hp).
  destruct (step_R e s z H Hpos) as (s' & E & H'). rewrite E. cbn [bind fst snd]. rewrite (IH s' _ H' Hh). reflexivity.
Qed.

Definition bounded (z : spec_node) : Prop := forall b o t, z_map z b = Some (o, t) -> (t <= z_now z + FIVE_MINUTES)%Z.
Lemma learn_bounded : forall z o a, bounded z -> bounded (spec_learn z o a).
Proof. intros z o a H. unfold spec_learn. destruct (unicast a); [|exact H]. intros b q t. cbn [z_map z_now]. destruct (bytes_dec b a); [intros E; injection E as <- <-; lia | apply H]. Qed.
Lemma reset_bounded : forall z p, bounded z -> bounded (spec_reset z p).
Proof. intros z p H b o t. cbn [spec_reset z_map z_now]. specialize (H b). destruct (z_map z b) as [[[q|] u]|]; [destruct (N.eq_dec q p)| |]; intros E; try discriminate E; injection E as <- <-; exact (H _ _ eq_refl). Qed.
Lemma resets_bounded : forall l z, bounded z -> bounded (fold_left spec_reset l z).
Proof. intros l. induction l as [|p l IH]; intros z H; [exact H|]. cbn [fold_left]. apply IH. apply reset_bounded. exact H. Qed.
Lemma resets_now : forall l z, z_now (fold_left spec_reset l z) = z_now z.
Proof. intros l. induction l as [|p l IH]; intros z; [reflexivity|]. cbn [fold_left]. rewrite IH. reflexivity. Qed.
Lemma learn_now : forall z o a, z_now (spec_learn z o a) = z_now z.
Proof. intros z o a. unfold spec_learn. destruct (unicast a); reflexivity. Qed.

Definition before_send (e : eth_event) (z : spec_node) : spec_node :=
  match e with
  | FTime dt => mk_spec_node (z_now z + Z.of_N dt) (z_map z) (z_peers z) (z_next z)
  | FRecv _ p f _ => if Nat.ltb (length f) 14 then z else spec_learn z (Some p) (firstn 6 (skipn 6 f))
  | FIface None f _ => if Nat.ltb (length f) 14 then z else spec_learn z None (firstn 6 (skipn 6 f))
  | FEstablish p => mk_spec_node (z_now z) (z_map z) (map (fun q => if N.eq_dec (fst q) p then (p, true) else q) (z_peers z)) (z_next z)
  | FAdd => mk_spec_node (z_now z) (z_map z) (z_peers z ++ [(z_next z, false)]) (z_next z + 1)%N
  | FCleanup => mk_spec_node (z_now z) (fun b => match z_map z b with Some (o, t) => if Z_le_dec t (z_now z) then None else Some (o, t) | None => None end) (z_peers z) (z_next z)
  | _ => z
  end.
(** Every step: learning or one of the simple changes, then resets of some peers, then perhaps deletion *)
Lemma step_shape : forall e z, exists l, let z1 := fold_left spec_reset l (before_send e z) in
  z_now (fst (spec_step e z)) = z_now z1 /\ z_map (fst (spec_step e z)) = z_map z1 /\ (forall p b, In (p, b) (z_peers (fst (spec_step e z))) -> In (p, b) (z_peers z1)).
Proof.
  intros e z. destruct e as [dt|fw p f expired|dest f expired|p|p| |p|]; cbn [spec_step fst before_send].
  - exists []. split; [reflexivity|]. split; [reflexivity|]. intros p b X. exact X.
  - unfold spec_frame. destruct (Nat.ltb (length f) 14); [exists []; split; [reflexivity|]; split; [reflexivity|]; intros q b X; exact X|].
    destruct fw; [|exists []; split; [reflexivity|]; split; [reflexivity|]; intros q b X; exact X]. unfold deliver. cbn [fst]. eexists. split; [reflexivity|]. split; [reflexivity|]. intros q b X. exact X.
  - destruct dest as [d|].
    + unfold deliver. cbn [fst]. eexists. split; [reflexivity|]. split; [reflexivity|]. intros q b X. exact X.
    + unfold spec_frame. destruct (Nat.ltb (length f) 14); [exists []; split; [reflexivity|]; split; [reflexivity|]; intros q b X; exact X|].
      unfold deliver. cbn [fst]. eexists. split; [reflexivity|]. split; [reflexivity|]. intros q b X. exact X.
  - exists [p]. split; [reflexivity|]. split; [reflexivity|]. intros q b X. exact X.
  - exists []. split; [reflexivity|]. split; [reflexivity|]. intros q b X. exact X.
  - exists []. split; [reflexivity|]. split; [reflexivity|]. intros q b X. exact X.
  - exists [p]. split; [reflexivity|]. split; [reflexivity|]. intros q b X. cbn [z_peers] in X. apply filter_In in X. exact (proj1 X).
  - exists []. split; [reflexivity|]. split; [reflexivity|]. intros q b X. exact X.
Qed.
Lemma before_now : forall e z, (z_now z <= z_now (before_send e z))%Z.
Proof.
  intros e z. destruct e as [dt|fw p f expired|dest f expired|p|p| |p|]; cbn [before_send z_now]; try lia.
  - destruct (Nat.ltb (length f) 14); [lia | rewrite learn_now; lia].
  - destruct dest; [lia|]. destruct (Nat.ltb (length f) 14); [lia | rewrite learn_now; lia].
Qed.
Lemma before_bounded : forall e z, bounded z -> bounded (before_send e z).
Proof.
  intros e z H. destruct e as [dt|fw p f expired|dest f expired|p|p| |p|]; cbn [before_send]; try exact H.
  - intros b o t E. cbn [z_map z_now] in *. specialize (H b o t E). lia.
  - destruct (Nat.ltb (length f) 14); [exact H | apply learn_bounded; exact H].
  - destruct dest; [exact H|]. destruct (Nat.ltb (length f) 14); [exact H | apply learn_bounded; exact H].
  - intros b o t. cbn [z_map z_now]. specialize (H b). destruct (z_map z b) as [[o' t']|]; [|discriminate]. destruct (Z_le_dec t' (z_now z)); [discriminate|]. intros E. injection E as <- <-. exact (H _ _ eq_refl).
Qed.
Lemma step_bounded : forall e z, bounded z -> bounded (fst (spec_step e z)).
Proof.
  intros e z H. destruct (step_shape e z) as (l & En & Em & _). intros b o t. rewrite En, Em. apply resets_bounded. apply before_bounded. exact H.
Qed.
Lemma step_now : forall e z, (z_now z <= z_now (fst (spec_step e z)))%Z.
Proof. intros e z. destruct (step_shape e z) as (l & En & _ & _). rewrite En, resets_now. apply before_now. Qed.

(** A silent step and one address *)
Lemma before_map : forall e z a, (forall o, ~ frame_from e o a) -> z_map (before_send e z) a = z_map z a \/
  (e = FCleanup /\ exists o t, z_map z a = Some (o, t) /\ (t <= z_now z)%Z /\ z_map (before_send e z) a = None).
Proof.
  intros e z a H. destruct e as [dt|fw p f expired|dest f expired|p|p| |p|]; cbn [before_send]; try (left; reflexivity).
  - left. destruct (Nat.ltb_spec (length f) 14) as [X|X]; [reflexivity|]. unfold spec_learn. destruct (unicast (firstn 6 (skipn 6 f))); [|reflexivity]. cbn [z_map]. destruct (bytes_dec a (firstn 6 (skipn 6 f))) as [->|N]; [|reflexivity].
    exfalso. apply (H (Some p)). split; [reflexivity|]. split; [exact X | reflexivity].
  - destruct dest; [left; reflexivity|]. left. destruct (Nat.ltb_spec (length f) 14) as [X|X]; [reflexivity|]. unfold spec_learn. destruct (unicast (firstn 6 (skipn 6 f))); [|reflexivity]. cbn [z_map]. destruct (bytes_dec a (firstn 6 (skipn 6 f))) as [->|N]; [|reflexivity].
    exfalso. apply (H None). split; [reflexivity|]. split; [exact X | reflexivity].
  - cbn [z_map]. destruct (z_map z a) as [[o t]|]; [|left; reflexivity]. destruct (Z_le_dec t (z_now z)); [right | left; reflexivity]. split; [reflexivity|]. exists o, t. split; [reflexivity|]. split; [assumption | reflexivity].
Qed.
Lemma resets_map : forall l z a, z_map (fold_left spec_reset l z) a = z_map z a \/
  (exists p t, In p l /\ z_map z a = Some (Some p, t) /\ z_map (fold_left spec_reset l z) a = None).
Proof.
  intros l. induction l as [|p l IH]; intros z a; [left; reflexivity|]. cbn [fold_left].
  assert (H1 : z_map (spec_reset z p) a = z_map z a \/ exists t, z_map z a = Some (Some p, t) /\ z_map (spec_reset z p) a = None).
  { cbn [spec_reset z_map]. destruct (z_map z a) as [[[q|] t]|]; try (left; reflexivity). destruct (N.eq_dec q p) as [->|N]; [right; exists t; split; reflexivity | left; reflexivity]. }
  destruct (IH (spec_reset z p) a) as [E|(q & t & Hq & E1 & E2)].
  - rewrite E. destruct H1 as [H1|(t & H1 & H2)]; [left; exact H1 | right; exists p, t; split; [left; reflexivity|]; split; [exact H1 | exact H2]].
  - right. destruct H1 as [H1|(u & _ & H2)]; [|congruence]. exists q, t. split; [right; exact Hq|]. split; [congruence | exact E2].
Qed.
Lemma resets_down : forall l z p, In p l -> ~ In (p, true) (z_peers (fold_left spec_reset l z)).
Proof.
  intros l. induction l as [|q l IH]; intros z p Hp; [contradiction|]. cbn [fold_left]. destruct (in_dec N.eq_dec p l) as [X|X]; [exact (IH _ p X)|]. destruct Hp as [->|Hp]; [|contradiction].
  assert (G : forall l z, ~ In (p, true) (z_peers z) -> ~ In (p, true) (z_peers (fold_left spec_reset l z))).
  { clear. intros l. induction l as [|q l IH]; intros z H; [exact H|]. cbn [fold_left]. apply IH. intros X. apply H. cbn [spec_reset z_peers] in X. apply in_map_iff in X. destruct X as ([r c] & E & X). cbn [fst] in E. destruct (N.eq_dec r q); [discriminate E | injection E as -> ->; exact X]. }
  apply G. intros Y. cbn [spec_reset z_peers] in Y. apply in_map_iff in Y. destruct Y as ([r c] & E & Y). cbn [fst] in E. destruct (N.eq_dec r p); [discriminate E | injection E as -> _; congruence].
Qed.

Lemma silent_none : forall e z a, (forall o, ~ frame_from e o a) -> z_map z a = None -> z_map (fst (spec_step e z)) a = None.
Proof.
  intros e z a H E. destruct (step_shape e z) as (l & _ & Em & _). rewrite Em. destruct (before_map e z a H) as [B|(_ & o & t & B & _)]; [|congruence]. rewrite E in B.
  destruct (resets_map l (before_send e z) a) as [C|(p & t & _ & C & _)]; [congruence | congruence].
Qed.
Lemma silent_old : forall e z a T, (forall o, ~ frame_from e o a) -> (forall o t, z_map z a = Some (o, t) -> (t <= T)%Z) -> forall o t, z_map (fst (spec_step e z)) a = Some (o, t) -> (t <= T)%Z.
Proof.
  intros e z a T H Hb o t. destruct (step_shape e z) as (l & _ & Em & _). rewrite Em. intros E. destruct (resets_map l (before_send e z) a) as [C|(p & u & _ & _ & C)]; [|congruence]. rewrite C in E.
  destruct (before_map e z a H) as [B|(_ & o' & t' & _ & _ & B)]; [|congruence]. rewrite B in E. exact (Hb o t E).
Qed.
Lemma quiet_same : forall e z a owner T, (forall o, ~ frame_from e o a) -> match owner with Some p => In (p, true) (z_peers (fst (spec_step e z))) | None => True end ->
  (z_now z < T)%Z -> z_map z a = Some (owner, T) -> z_map (fst (spec_step e z)) a = Some (owner, T).
Proof.
  intros e z a owner T H Hc Ht E. destruct (step_shape e z) as (l & _ & Em & Ep). rewrite Em. destruct (before_map e z a H) as [B|(_ & o & t & B & Bt & _)].
  - rewrite E in B. destruct (resets_map l (before_send e z) a) as [C|(p & t & Hp & C & _)]; [congruence|]. rewrite B in C. injection C as -> <-. exfalso. exact (resets_down l _ p Hp (Ep p true Hc)).
  - rewrite E in B. injection B as <- <-. lia.
Qed.

Lemma path_R : forall ok s s', eth_path ok s s' -> forall z, R s z -> bounded z -> exists z', R s' z' /\ bounded z'.
Proof.
  intros ok s s' H. induction H as [|s1 e s2 out H1 IH Hpos E Hok]; intros z HR Hb; [exists z; split; assumption|]. destruct (IH z HR Hb) as (z1 & R1 & B1).
  destruct (step_R e s1 z1 R1 Hpos) as (s2' & E' & R2). rewrite E in E'. injection E' as <- _. exists (fst (spec_step e z1)). split; [exact R2 | apply step_bounded; exact B1].
Qed.
Lemma reach_R : forall s, eth_reachable s -> exists z, R s z /\ bounded z.
Proof. intros s H. apply (path_R _ _ _ H spec_init init_R). intros b o t E. discriminate E. Qed.

(** ** Where a frame goes *)
Lemma frame_out : forall e s z s' out source f expired, R s z -> possible s e -> eth_step e s = Ok (s', out) -> frame_to e source f expired ->
  out = filter (fun p => negb (existsb (N.eqb p) expired)) (dests (spec_learn z source (firstn 6 (skipn 6 f))) f source).
Proof.
  intros e s z s' out source f expired H Hpos E [Hl He]. destruct (step_R e s z H Hpos) as (s1 & E1 & _). rewrite E in E1. injection E1 as _ ->.
  destruct e as [|fw p f' x|[d|] f' x| | | | |]; try contradiction; cbn [spec_step]; unfold spec_frame.
  - destruct He as (-> & -> & -> & ->). destruct (Nat.ltb_spec (length f) 14) as [X|_]; [lia|]. reflexivity.
  - destruct He as (-> & -> & ->). destruct (Nat.ltb_spec (length f) 14) as [X|_]; [lia|]. reflexivity.
Qed.
Lemma learn_peers : forall z o a, z_peers (spec_learn z o a) = z_peers z.
Proof. intros z o a. unfold spec_learn. destruct (unicast a); reflexivity. Qed.
Lemma learn_other : forall z o a b, b <> a -> z_map (spec_learn z o a) b = z_map z b.
Proof. intros z o a b N. unfold spec_learn. destruct (unicast a); [|reflexivity]. cbn [z_map]. destruct (bytes_dec b a); [contradiction | reflexivity]. Qed.
Lemma existsb_In : forall p l, existsb (N.eqb p) l = true <-> In p l.
Proof. intros p l. rewrite existsb_exists. split; [intros (q & Hq & E); apply N.eqb_eq in E; subst q; exact Hq | intros H; exists p; split; [exact H | apply N.eqb_refl]]. Qed.
Lemma is_source_true : forall source p, is_source source p = true <-> source = Some p.
Proof. intros [q|] p; cbn [is_source]; [rewrite N.eqb_eq; split; congruence | split; discriminate]. Qed.
Lemma all_flooded : forall s z source expired a o, R s z -> flooded s source expired (filter (fun p => negb (existsb (N.eqb p) expired)) (all_others (spec_learn z o a) source)).
Proof.
  intros s z source expired a o H. unfold all_others. rewrite learn_peers, <- (r_peers s z H). split.
  - apply NoDup_filter. pose proof (r_nodup s z H) as Hd. clear - Hd. induction (m_peers s) as [|[q b] t IHt]; [constructor|]. cbn [map fst filter snd] in *. inversion Hd as [|? ? Hn Hd']; subst. destruct (b && negb (is_source source q))%bool; [|exact (IHt Hd')].
    cbn [map fst]. constructor; [|exact (IHt Hd')]. intros X. apply Hn. apply in_map_iff in X. destruct X as (x & E & X). apply filter_In in X. apply in_map_iff. exists x. split; [exact E | apply X].
  - intros p. rewrite filter_In, in_map_iff, negb_true_iff. split.
    + intros [([q b] & E & X) Hx]. cbn [fst] in E. subst q. apply filter_In in X. destruct X as [X1 X2]. cbn [fst snd] in X2. apply andb_true_iff in X2. destruct X2 as [-> X2]. apply negb_true_iff in X2.
      split; [exact X1|]. split; [intros Es; apply is_source_true in Es; congruence | intros Hin; apply existsb_In in Hin; congruence].
    + intros (X1 & X2 & X3). split.
      * exists (p, true). split; [reflexivity|]. apply filter_In. split; [exact X1|]. cbn [fst snd andb]. apply negb_true_iff. destruct (is_source source p) eqn:Es; [apply is_source_true in Es; contradiction | reflexivity].
      * destruct (existsb (N.eqb p) expired) eqn:Ex; [apply existsb_In in Ex; contradiction | reflexivity].
Qed.

(** ** The theorems *)
Lemma quiet_path : forall owner a s1 s2, eth_path (quiet owner a) s1 s2 -> forall z1 T, R s1 z1 -> z_map z1 a = Some (owner, T) -> exists z2, R s2 z2 /\ ((m_now s2 < T)%Z -> z_map z2 a = Some (owner, T)).
Proof.
  intros owner a s1 s2 H. induction H as [|s e s' out H1 IH Hpos E [Hs Hc]]; intros z1 T HR Hz; [exists z1; split; [exact HR | intros _; exact Hz]|].
  destruct (IH z1 T HR Hz) as (z & Rz & Hm). destruct (step_R e s z Rz Hpos) as (s'' & E' & R'). rewrite E in E'. injection E' as <- _. exists (fst (spec_step e z)). split; [exact R'|]. intros Ht.
  rewrite (r_now _ _ R') in Ht. pose proof (step_now e z) as Hn. rewrite (r_now _ _ Rz) in Hm. apply quiet_same; [exact Hs | | lia | apply Hm; lia]. destruct owner as [p|]; [|exact I]. rewrite <- (r_peers _ _ R'). exact Hc.
Qed.
Lemma learned : forall e s s' out z owner a, R s z -> possible s e -> eth_step e s = Ok (s', out) -> frame_from e owner a -> unicast a = true -> connected owner s' ->
  exists z', R s' z' /\ z_map z' a = Some (owner, (m_now s + FIVE_MINUTES)%Z).
Proof.
  intros e s s' out z owner a H Hpos E Hf Hu Hc. destruct (step_R e s z H Hpos) as (s1 & E1 & R1). rewrite E in E1. injection E1 as <- _. exists (fst (spec_step e z)). split; [exact R1|].
  destruct (step_shape e z) as (l & _ & Em & Ep). rewrite Em.
  assert (B : z_map (before_send e z) a = Some (owner, (m_now s + FIVE_MINUTES)%Z)).
  { rewrite (r_now _ _ H). destruct e as [|fw p f x|[d|] f x| | | | |]; try contradiction; cbn [frame_from before_send] in *; destruct Hf as (-> & Hl & <-); (destruct (Nat.ltb_spec (length f) 14) as [X|_]; [lia|]); unfold spec_learn; rewrite Hu; cbn [z_map];
    match goal with |- context [bytes_dec ?x ?x] => destruct (bytes_dec x x); [reflexivity | contradiction] end. }
  destruct (resets_map l (before_send e z) a) as [C|(p & t & Hp & C & _)]; [congruence|]. rewrite B in C. injection C as -> _. exfalso. apply (resets_down l (before_send e z) p Hp). apply Ep. rewrite <- (r_peers _ _ R1). exact Hc.
Qed.
Lemma known_destination : forall s0 e0 s1 out0 owner a s2 e source f expired s3 out,
  eth_reachable s0 -> possible s0 e0 -> eth_step e0 s0 = Ok (s1, out0) -> frame_from e0 owner a -> unicast a = true -> connected owner s1 ->
  eth_path (quiet owner a) s1 s2 -> (m_now s2 < m_now s0 + FIVE_MINUTES)%Z ->
  possible s2 e -> eth_step e s2 = Ok (s3, out) -> frame_to e source f expired -> firstn 6 f = a -> firstn 6 (skipn 6 f) <> a ->
  (forall p, owner = Some p -> source <> Some p -> ~ In p expired -> out = [p]) /\
  (owner = None \/ owner = source \/ (exists p, owner = Some p /\ In p expired) -> out = []).
Proof.
  intros s0 e0 s1 out0 owner a s2 e source f expired s3 out Hr Hp0 E0 Hf Hu Hc Hpath Ht Hp E Hto Hd Hs. destruct (reach_R s0 Hr) as (z0 & R0 & _).
  destruct (learned e0 s0 s1 out0 z0 owner a R0 Hp0 E0 Hf Hu Hc) as (z1 & R1 & M1). destruct (quiet_path owner a s1 s2 Hpath z1 _ R1 M1) as (z2 & R2 & M2). specialize (M2 Ht).
  rewrite (frame_out e s2 z2 s3 out source f expired R2 Hp E Hto). unfold dests. rewrite Hd, Hu, learn_other, M2 by congruence. destruct owner as [p|].
  - split.
    + intros q Eq Hsq Hx. injection Eq as <-. destruct (is_source source p) eqn:Es; [apply is_source_true in Es; contradiction|]. cbn [filter]. destruct (existsb (N.eqb p) expired) eqn:Ex; [apply existsb_In in Ex; contradiction | reflexivity].
    + intros [D|[D|(q & Eq & Hx)]]; [discriminate D | |].
      * symmetry in D. apply is_source_true in D. rewrite D. reflexivity.
      * injection Eq as <-. apply existsb_In in Hx. destruct (is_source source p); [reflexivity|]. cbn [filter]. rewrite Hx. reflexivity.
  - split; [discriminate | reflexivity].
Qed.

Lemma silent_path_none : forall a s1 s2, eth_path (silent a) s1 s2 -> forall z1, R s1 z1 -> z_map z1 a = None -> exists z2, R s2 z2 /\ z_map z2 a = None.
Proof.
  intros a s1 s2 H. induction H as [|s e s' out H1 IH Hpos E Hs]; intros z1 HR Hz; [exists z1; split; assumption|]. destruct (IH z1 HR Hz) as (z & Rz & Hm).
  destruct (step_R e s z Rz Hpos) as (s'' & E' & R'). rewrite E in E'. injection E' as <- _. exists (fst (spec_step e z)). split; [exact R' | apply silent_none; assumption].
Qed.
Lemma silent_path_old : forall a s1 s2, eth_path (silent a) s1 s2 -> forall z1 T, R s1 z1 -> (forall o t, z_map z1 a = Some (o, t) -> (t <= T)%Z) -> exists z2, R s2 z2 /\ (forall o t, z_map z2 a = Some (o, t) -> (t <= T)%Z).
Proof.
  intros a s1 s2 H. induction H as [|s e s' out H1 IH Hpos E Hs]; intros z1 T HR Hz; [exists z1; split; assumption|]. destruct (IH z1 T HR Hz) as (z & Rz & Hm).
  destruct (step_R e s z Rz Hpos) as (s'' & E' & R'). rewrite E in E'. injection E' as <- _. exists (fst (spec_step e z)). split; [exact R' | apply silent_old; assumption].
Qed.
Lemma none_floods : forall s z e source f expired s' out, R s z -> z_map z (firstn 6 f) = None -> possible s e -> eth_step e s = Ok (s', out) -> frame_to e source f expired ->
  firstn 6 (skipn 6 f) <> firstn 6 f -> flooded s source expired out.
Proof.
  intros s z e source f expired s' out H Hz Hp E Hto Hs. rewrite (frame_out e s z s' out source f expired H Hp E Hto). unfold dests. rewrite learn_other, Hz by congruence. destruct (unicast (firstn 6 f)); apply all_flooded; exact H.
Qed.
Lemma unknown_destination : forall s e source f expired s' out, eth_path (silent (firstn 6 f)) eth_init s -> possible s e -> eth_step e s = Ok (s', out) -> frame_to e source f expired ->
  firstn 6 (skipn 6 f) <> firstn 6 f -> flooded s source expired out.
Proof.
  intros s e source f expired s' out Hpath Hp E Hto Hs. destruct (silent_path_none _ _ _ Hpath spec_init init_R eq_refl) as (z & Rz & Mz). exact (none_floods s z e source f expired s' out Rz Mz Hp E Hto Hs).
Qed.
Lemma forgotten_destination : forall s1 s2 s3 out3 s4 e source f expired s5 out, eth_reachable s1 -> eth_path (silent (firstn 6 f)) s1 s2 -> (m_now s1 + FIVE_MINUTES <= m_now s2)%Z ->
  eth_step FCleanup s2 = Ok (s3, out3) -> eth_path (silent (firstn 6 f)) s3 s4 -> possible s4 e -> eth_step e s4 = Ok (s5, out) -> frame_to e source f expired ->
  firstn 6 (skipn 6 f) <> firstn 6 f -> flooded s4 source expired out.
Proof.
  intros s1 s2 s3 out3 s4 e source f expired s5 out Hr P1 Ht E3 P2 Hp E Hto Hs. destruct (reach_R s1 Hr) as (z1 & R1 & B1).
  destruct (silent_path_old _ _ _ P1 z1 (z_now z1 + FIVE_MINUTES)%Z R1 (fun o t X => B1 _ o t X)) as (z2 & R2 & M2).
  destruct (step_R FCleanup s2 z2 R2 I) as (s3' & E3' & R3). rewrite E3 in E3'. injection E3' as <- _.
  assert (M3 : z_map (fst (spec_step FCleanup z2)) (firstn 6 f) = None).
  { cbn [spec_step fst z_map]. destruct (z_map z2 (firstn 6 f)) as [[o t]|] eqn:Em; [|reflexivity]. specialize (M2 o t eq_refl). rewrite (r_now _ _ R1), (r_now _ _ R2) in Ht. destruct (Z_le_dec t (z_now z2)); [reflexivity | lia]. }
  destruct (silent_path_none _ _ _ P2 _ R3 M3) as (z4 & R4 & M4). exact (none_floods s4 z4 e source f expired s5 out R4 M4 Hp E Hto Hs).
Qed.
Lemma multicast : forall s e source f expired s' out, eth_reachable s -> possible s e -> eth_step e s = Ok (s', out) -> frame_to e source f expired -> unicast (firstn 6 f) = false -> flooded s source expired out.
Proof.
  intros s e source f expired s' out Hr Hp E Hto Hu. destruct (reach_R s Hr) as (z & H & _). rewrite (frame_out e s z s' out source f expired H Hp E Hto). unfold dests. rewrite Hu. apply all_flooded. exact H.
Qed.
Lemma never_back : forall s e, eth_reachable s -> possible s e -> exists s' out, eth_step e s = Ok (s', out) /\ NoDup out /\
  (forall p, In p out -> In (p, true) (m_peers s) /\ match e with FRecv _ q _ x => p <> q /\ ~ In p x | FIface (Some d) _ x => p = d /\ ~ In p x | FIface None _ x => ~ In p x | _ => False end).
Proof.
  intros s e Hr Hp. destruct (reach_R s Hr) as (z & H & _). destruct (step_R e s z H Hp) as (s' & E & _). exists s', (snd (spec_step e z)). split; [exact E|].
  assert (G : forall source x f o a, let out := filter (fun p => negb (existsb (N.eqb p) x)) (dests (spec_learn z o a) f source) in
    connected o s -> length (firstn 6 f) = 6 -> NoDup out /\ forall p, In p out -> In (p, true) (m_peers s) /\ source <> Some p /\ ~ In p x).
  { intros source x f o a out Ho Hlen. unfold out, dests. assert (F : flooded s source x (filter (fun p => negb (existsb (N.eqb p) x)) (all_others (spec_learn z o a) source))) by (apply all_flooded; exact H).
    assert (F' : NoDup (filter (fun p => negb (existsb (N.eqb p) x)) (all_others (spec_learn z o a) source)) /\ forall p, In p (filter (fun p => negb (existsb (N.eqb p) x)) (all_others (spec_learn z o a) source)) -> In (p, true) (m_peers s) /\ source <> Some p /\ ~ In p x).
    { destruct F as [F1 F2]. split; [exact F1|]. intros p Hin. apply F2. exact Hin. }
    destruct (unicast (firstn 6 f)); [|exact F']. destruct (z_map (spec_learn z o a) (firstn 6 f)) as [[[d|] t]|] eqn:Em; [|split; [constructor | intros p []] | exact F'].
    destruct (is_source source d) eqn:Es; [split; [constructor | intros p []]|]. split; [apply NoDup_filter; constructor; [intros [] | constructor]|]. intros p Hin. apply filter_In in Hin. destruct Hin as [[<-|[]] Hx].
    split; [|split; [intros X; apply is_source_true in X; congruence | intros X; apply existsb_In in X; rewrite X in Hx; discriminate]].
    unfold spec_learn in Em. assert (K : z_map z (firstn 6 f) = Some (Some d, t) -> In (d, true) (m_peers s)).
    { intros K. rewrite (r_map s z H _ Hlen) in K. destruct (lookup (m_eth s) (firstn 6 f)) as [en|] eqn:El; [|discriminate]. injection K as K1 K2. apply lookup_in in El. exact (r_own s z H en d (proj1 El) K1). }
    destruct (unicast a); [|exact (K Em)]. cbn [z_map] in Em. destruct (bytes_dec (firstn 6 f) a); [|exact (K Em)]. injection Em as -> _. exact Ho. }
  destruct e as [dt|fw q f x|[d|] f x|q|q| |q|]; cbn [spec_step snd fst]; try (split; [constructor | intros p []]).
  - unfold spec_frame. destruct (Nat.ltb_spec (length f) 14) as [X|X]; [split; [constructor | intros p []]|]. destruct fw; [|split; [constructor | intros p []]]. unfold deliver. cbn [snd].
    destruct (G (Some q) x f (Some q) (firstn 6 (skipn 6 f)) Hp (len_dest f X)) as [G1 G2]. split; [exact G1|]. intros p Hin. destruct (G2 p Hin) as (A & B & C). split; [exact A|]. split; [congruence | exact C].
  - unfold deliver. cbn [snd]. split.
    + apply NoDup_filter. rewrite <- (r_peers s z H). pose proof (r_nodup s z H) as Hd. clear - Hd. induction (m_peers s) as [|[q b] t IHt]; [constructor|]. cbn [map fst filter snd] in *. inversion Hd as [|? ? Hn Hd']; subst. destruct (N.eqb q d && b)%bool; [|exact (IHt Hd')].
      cbn [map fst]. constructor; [|exact (IHt Hd')]. intros X. apply Hn. apply in_map_iff in X. destruct X as (y & E & X). apply filter_In in X. apply in_map_iff. exists y. split; [exact E | apply X].
    + intros p Hin. apply filter_In in Hin. destruct Hin as [Hin Hx]. apply in_map_iff in Hin. destruct Hin as ([q b] & Eq & Hin). cbn [fst] in Eq. subst q. apply filter_In in Hin. destruct Hin as [Hin Hb]. cbn [fst snd] in Hb. apply andb_true_iff in Hb. destruct Hb as [Hb1 ->]. apply N.eqb_eq in Hb1.
      rewrite <- (r_peers s z H) in Hin. split; [exact Hin|]. split; [exact Hb1|]. intros X. apply existsb_In in X. rewrite X in Hx. discriminate.
  - unfold spec_frame. destruct (Nat.ltb_spec (length f) 14) as [X|X]; [split; [constructor | intros p []]|]. unfold deliver. cbn [snd].
    destruct (G None x f None (firstn 6 (skipn 6 f)) I (len_dest f X)) as [G1 G2]. split; [exact G1|]. intros p Hin. destruct (G2 p Hin) as (A & _ & C). split; [exact A | exact C].
Qed.
