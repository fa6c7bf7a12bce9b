(** Proofs about method names *)
From Verif Require Import Base BaseLemmas BufferModel MethodModel AddrProofs NameModel NameSpec.
From Coq Require Import String.
Local Open Scope nat_scope.

Lemma vla_ok : forall n, n <> 0 -> vla n = Ok (repeat None n).
Proof. intros [|n] H; [congruence | reflexivity]. Qed.

Lemma put_front : forall (d : bytes) n, List.length d <= n -> put (repeat None n) 0 d = Ok (map Some d ++ repeat None (n - List.length d)).
Proof.
  intros d n H. unfold put. rewrite repeat_length. rewrite (proj2 (Nat.leb_le _ _)) by lia. cbn [firstn app plus].
  f_equal. f_equal. replace n with (List.length d + (n - List.length d)) at 1 by lia. rewrite repeat_app.
  rewrite skipn_app, repeat_length, Nat.sub_diag. cbn [skipn]. rewrite skipn_all2 by (rewrite repeat_length; lia). reflexivity.
Qed.

Lemma put_next : forall (d x : bytes) n, List.length x <= n -> put (map Some d ++ repeat None n) (List.length d) x = Ok (map Some (d ++ x) ++ repeat None (n - List.length x)).
Proof.
  intros d x n H. unfold put. rewrite app_length, map_length, repeat_length. rewrite (proj2 (Nat.leb_le _ _)) by lia.
  f_equal. rewrite firstn_app, map_length, Nat.sub_diag. cbn [firstn]. rewrite firstn_all2 by (rewrite map_length; lia). rewrite app_nil_r.
  rewrite skipn_app, map_length. rewrite skipn_all2 by (rewrite map_length; lia). cbn [app]. rewrite map_app, <- app_assoc. f_equal. f_equal.
  replace (List.length d + List.length x - List.length d) with (List.length x) by lia.
  replace n with (List.length x + (n - List.length x)) at 1 by lia. rewrite repeat_app, skipn_app, repeat_length, Nat.sub_diag.
  rewrite skipn_all2 by (rewrite repeat_length; lia). reflexivity.
Qed.

(** the two writes that build the name of a cipher *)
Lemma build : forall name k x n, k <= List.length name -> k + List.length x <= n -> n <> 0 ->
  (do a <- vla n; do a <- copy_from a 0 name k; put a k x) = Ok (map Some (firstn k name ++ x) ++ repeat None (n - k - List.length x)).
Proof.
  intros name k x n Hk Hn H0. rewrite vla_ok by exact H0. cbn [bind]. unfold copy_from. rewrite (proj2 (Nat.leb_le _ _)) by lia.
  rewrite firstn_app. replace (k - List.length name) with 0 by lia. cbn [firstn]. rewrite app_nil_r.
  assert (Hl : List.length (firstn k name) = k) by (rewrite firstn_length; lia).
  rewrite put_front by lia. cbn [bind]. rewrite Hl. pose proof (put_next (firstn k name) x (n - k) ltac:(lia)) as P. rewrite Hl in P. exact P.
Qed.
Lemma build2 : forall name k x n A (f : cells -> res A), k <= List.length name -> k + List.length x <= n -> n <> 0 ->
  (do a <- copy_from (repeat None n) 0 name k; do a <- put a k x; f a) = f (map Some (firstn k name ++ x) ++ repeat None (n - k - List.length x)).
Proof.
  intros name k x n A f Hk Hn H0. pose proof (build name k x n Hk Hn H0) as B. rewrite vla_ok in B by exact H0. cbn [bind] in B.
  destruct (copy_from (repeat None n) 0 name k) as [a| | |]; try discriminate. cbn [bind] in *. rewrite B. reflexivity.
Qed.

Lemma cstr_string : forall d r, c_string d -> cstr (map Some (d ++ [0%N]) ++ r) = Ok d.
Proof.
  intros d r. induction d as [|b d IH]; intros H; [reflexivity|]. cbn [map app cstr].
  destruct (N.eqb_spec b 0) as [->|Hb]; [exfalso; apply H; left; reflexivity|].
  rewrite IH; [reflexivity|]. intros Hin. apply H. right. exact Hin.
Qed.

(** [strchr] on a string *)
Lemma chr_spec : forall c d r i, c <> 0%N -> c_string d ->
  (chr c (map Some (d ++ [0%N]) ++ r) i = Ok None /\ ~ In c d) \/
  (exists x y, d = x ++ c :: y /\ ~ In c x /\ chr c (map Some (d ++ [0%N]) ++ r) i = Ok (Some (i + List.length x))).
Proof.
  intros c d r i Hc. revert i. induction d as [|b d IH]; intros i H.
  - left. cbn [app map chr]. destruct (N.eqb_spec 0 c) as [E|_]; [congruence|]. split; [reflexivity | intros []].
  - cbn [map app chr]. destruct (N.eqb_spec b c) as [->|Hb].
    + right. exists [], d. split; [reflexivity|]. split; [intros []|]. rewrite Nat.add_0_r. reflexivity.
    + destruct (N.eqb_spec b 0) as [->|H0]; [exfalso; apply H; left; reflexivity|].
      destruct (IH (S i)) as [[E N]|(x & y & -> & N & E)].
      * intros Hin. apply H. right. exact Hin.
      * left. split; [exact E|]. intros [X|X]; [congruence | exact (N X)].
      * right. exists (b :: x), y. split; [reflexivity|]. split; [intros [X|X]; [congruence | exact (N X)]|].
        rewrite E. cbn [List.length]. do 2 f_equal. lia.
Qed.

(** writing a zero over the separator *)
Lemma split_cells : forall x c y r, put (map Some ((x ++ c :: y) ++ [0%N]) ++ r) (List.length x) [0%N] = Ok (map Some (x ++ [0%N]) ++ map Some (y ++ [0%N]) ++ r).
Proof.
  intros x c y r. unfold put. repeat (rewrite !app_length || rewrite !map_length). cbn [List.length].
  rewrite (proj2 (Nat.leb_le _ _)) by lia. f_equal. rewrite !map_app. cbn [map]. rewrite <- !app_assoc. cbn [app].
  rewrite firstn_app, map_length, Nat.sub_diag. cbn [firstn]. rewrite firstn_all2 by (rewrite map_length; lia). rewrite app_nil_r. f_equal. f_equal.
  rewrite skipn_app, map_length. rewrite skipn_all2 by (rewrite map_length; lia). cbn [app]. replace (List.length x + 1 - List.length x) with 1 by lia. reflexivity.
Qed.

(** ** Lookups *)
Lemma cipher_get_some : forall l n c, cipher_get l n = Some c -> In (c, true) l /\ ci_name c = n.
Proof.
  intros l n c. induction l as [|[i have] l IH]; [discriminate|]. cbn [cipher_get]. destruct (bytes_eqb (ci_name i) n) eqn:E; cbn [negb].
  - apply bytes_eqb_iff in E. destruct have; [|discriminate]. intros X. injection X as <-. split; [left; reflexivity | exact E].
  - intros X. destruct (IH X) as [A B]. split; [right; exact A | exact B].
Qed.
Lemma mac_get_some : forall l n c, mac_get l n = Some c -> In (c, true) l /\ c = n.
Proof.
  intros l n c. induction l as [|[i have] l IH]; [discriminate|]. cbn [mac_get]. destruct (bytes_eqb i n) eqn:E; cbn [negb].
  - apply bytes_eqb_iff in E. destruct have; [|discriminate]. intros X. injection X as <-. split; [left; reflexivity | exact E].
  - intros X. destruct (IH X) as [A B]. split; [right; exact A | exact B].
Qed.
Lemma all_ciphers_cases : forall i, In i all_ciphers -> exists c, i = ci c.
Proof. intros i [<-|[<-|[<-|[<-|[]]]]]; [exists Aes128Ctr | exists Null | exists Salsa20 | exists Salsa2012]; reflexivity. Qed.
Lemma ci_name_inj : forall c d, ci_name (ci c) = ci_name (ci d) -> c = d.
Proof. intros [] []; intros H; try reflexivity; discriminate. Qed.

Lemma cipher_get_in : forall e c, env_ok e -> In (ci c, true) (e_ciphers e) -> cipher_get (e_ciphers e) (str (cname c)) = Some (ci c).
Proof.
  intros e c (ND & IN & _) H. induction (e_ciphers e) as [|[i have] l IH]; [destruct H|]. cbn [cipher_get].
  inversion ND as [|? ? N1 N2]; subst. cbn [map fst] in *. destruct (bytes_eqb (ci_name i) (str (cname c))) eqn:E; cbn [negb].
  - apply bytes_eqb_iff in E. destruct (all_ciphers_cases i) as [d ->]; [apply IN; left; reflexivity|].
    assert (d = c) by (apply ci_name_inj; exact E). subst d. destruct H as [X|X]; [injection X as ->; reflexivity|].
    exfalso. apply N1. apply in_map with (f := fst) in X. exact X.
  - destruct H as [X|X]; [injection X as -> ->; cbn [ci ci_name] in E; assert (bytes_eqb (str (cname c)) (str (cname c)) = true) by (apply bytes_eqb_iff; reflexivity); congruence|].
    apply IH; [exact N2 | intros y Hy; apply IN; right; exact Hy | exact X].
Qed.
Lemma mac_get_in : forall e x, env_ok e -> In (x, true) (e_macs e) -> mac_get (e_macs e) x = Some x.
Proof.
  intros e x (_ & _ & ND & _) H. induction (e_macs e) as [|[i have] l IH]; [destruct H|]. cbn [mac_get].
  inversion ND as [|? ? N1 N2]; subst. destruct (bytes_eqb i x) eqn:E; cbn [negb].
  - apply bytes_eqb_iff in E. subst i. destruct H as [X|X]; [injection X as ->; reflexivity|].
    exfalso. apply N1. apply in_map with (f := fst) in X. exact X.
  - destruct H as [X|X]; [injection X as -> ->; assert (bytes_eqb x x = true) by (apply bytes_eqb_iff; reflexivity); congruence|].
    apply IH; [exact N2 | exact X].
Qed.
Lemma cipher_get_ci : forall e n i, env_ok e -> cipher_get (e_ciphers e) n = Some i -> exists c, i = ci c /\ n = str (cname c) /\ In (ci c, true) (e_ciphers e).
Proof.
  intros e n i (_ & IN & _) H. apply cipher_get_some in H. destruct H as [A B]. destruct (all_ciphers_cases i) as [c ->].
  { apply IN. apply in_map with (f := fst) in A. exact A. }
  exists c. split; [reflexivity|]. split; [symmetry; exact B | exact A].
Qed.

(** ** Suffixes *)
Lemma tail_is_ok : forall name off lit, off <= List.length name -> tail_is name off lit = Ok (bytes_eqb (skipn off name) lit).
Proof. intros name off lit H. unfold tail_is. rewrite (proj2 (Nat.leb_le _ _)) by exact H. reflexivity. Qed.
(** [name] ends with [lit] *)
Lemma suffix_split : forall name lit, bytes_eqb (skipn (List.length name - List.length lit) name) lit = true ->
  name = firstn (List.length name - List.length lit) name ++ lit.
Proof. intros name lit H. apply bytes_eqb_iff in H. transitivity (firstn (List.length name - List.length lit) name ++ skipn (List.length name - List.length lit) name); [symmetry; apply firstn_skipn | rewrite H; reflexivity]. Qed.
Lemma suffix_of : forall (a s l : bytes), a ++ s = l -> a = firstn (List.length l - List.length s) l /\ s = skipn (List.length l - List.length s) l.
Proof.
  intros a s l <-. rewrite app_length. replace (List.length a + List.length s - List.length s) with (List.length a) by lia.
  rewrite firstn_app, Nat.sub_diag, firstn_all, app_nil_r. rewrite skipn_app, Nat.sub_diag, skipn_all. split; reflexivity.
Qed.
Lemma c_string_firstn : forall n s, c_string s -> c_string (firstn n s).
Proof. intros n s H X. apply H. rewrite <- (firstn_skipn n s). apply in_or_app. left. exact X. Qed.
Lemma c_string_app : forall a b, c_string a -> c_string b -> c_string (a ++ b).
Proof. intros a b H1 H2 X. apply in_app_or in X. destruct X; [exact (H1 H) | exact (H2 H)]. Qed.
Lemma c_string_split : forall x c y, c_string (x ++ c :: y) -> c_string x /\ c_string y.
Proof. intros x c y H. split; intros X; apply H; apply in_or_app; [left; exact X | right; right; exact X]. Qed.

(** What a call of a provider must satisfy *)
Definition good (e : env) (name : bytes) (p : provider) (r : res (option method)) : Prop :=
  exists o, r = Ok o /\ forall m, o = Some m -> supports e m /\ exists s, name = str s /\ denotes s p m.

Lemma good_none : forall e name p, good e name p no_method.
Proof. intros. exists None. split; [reflexivity | discriminate]. Qed.

(** ** The providers one by one *)
Lemma cipher_test_good : forall e name, env_ok e -> c_string name -> good e name CipherTest (cipher_test e name).
Proof.
  intros e name He Hs. unfold cipher_test. cbv zeta. destruct (Nat.ltb_spec (List.length name) 12) as [_|Hl]; [apply good_none|].
  rewrite tail_is_ok by lia. cbn [bind]. destruct (bytes_eqb _ _) eqn:E; cbn [negb]; [|apply good_none].
  apply (suffix_split name (str "+cipher-test")) in E. change (List.length (str "+cipher-test")) with 12 in E.
  rewrite vla_ok by lia. cbn [bind]. rewrite build2 by (cbn [List.length]; lia). rewrite cstr_string by (apply c_string_firstn; exact Hs). cbn [bind].
  destruct (cipher_get _ _) as [i|] eqn:G; [|apply good_none].
  destruct (cipher_get_ci _ _ _ He G) as (c & -> & En & Hin). exists (Some (M_cipher (ci c))). split; [reflexivity|].
  intros m X. injection X as <-. split; [exact Hin|]. exists (cname c ++ "+cipher-test")%string. split; [|constructor].
  rewrite E, En. destruct c; reflexivity.
Qed.

Lemma poly1305_good : forall e name, env_ok e -> c_string name -> good e name GenericPoly1305 (generic_poly1305 e name).
Proof.
  intros e name He Hs. unfold generic_poly1305. cbv zeta. destruct (Nat.ltb_spec (List.length name) 9) as [_|Hl]; [apply good_none|].
  rewrite tail_is_ok by lia. cbn [bind]. destruct (bytes_eqb _ _) eqn:E; cbn [negb]; [|apply good_none].
  apply (suffix_split name (str "+poly1305")) in E. change (List.length (str "+poly1305")) with 9 in E.
  rewrite vla_ok by lia. cbn [bind]. rewrite build2 by (cbn [List.length]; lia). rewrite cstr_string by (apply c_string_firstn; exact Hs). cbn [bind].
  destruct (cipher_get _ _) as [i|] eqn:G; [|apply good_none].
  destruct (cipher_get_ci _ _ _ He G) as (c & -> & En & Hin). destruct (Nat.leb_spec (ci_iv (ci c)) COMMON_NONCEBYTES) as [_|Hiv]; [apply good_none|].
  exists (Some (M_cipher (ci c))). split; [reflexivity|].
  intros m X. injection X as <-. split; [exact Hin|]. exists (cname c ++ "+poly1305")%string. split.
  - rewrite E, En. destruct c; reflexivity.
  - constructor. intros ->. cbn in Hiv. lia.
Qed.

Lemma generic_end_good : forall e mac r d p name, env_ok e -> c_string d -> In (mac, true) (e_macs e) ->
  (forall c, d = str (cname c) -> c <> Null -> exists s, name = str s /\ denotes s p (M_generic (ci c) mac)) ->
  good e name p (generic_end e mac (map Some (d ++ [0%N]) ++ r)).
Proof.
  intros e mac r d p name He Hs Hm H. unfold generic_end. rewrite cstr_string by exact Hs. cbn [bind].
  destruct (cipher_get _ _) as [i|] eqn:G; [|apply good_none].
  destruct (cipher_get_ci _ _ _ He G) as (c & -> & En & Hin). destruct (Nat.leb_spec (ci_iv (ci c)) COMMON_NONCEBYTES) as [_|Hiv]; [apply good_none|].
  exists (Some (M_generic (ci c) mac)). split; [reflexivity|]. intros m X. injection X as <-. split; [split; assumption|].
  apply H; [exact En|]. intros ->. cbn in Hiv. lia.
Qed.

Lemma composed_end_good : forall e mac r d p name, env_ok e -> c_string d -> In (mac, true) (e_macs e) ->
  (forall c t, d = str (cname c ++ "+" ++ cname t) -> t <> Null -> exists s, name = str s /\ denotes s p (M_composed (ci c) (ci t) mac)) ->
  good e name p (composed_end e mac (map Some (d ++ [0%N]) ++ r)).
Proof.
  intros e mac r d p name He Hs Hm H. unfold composed_end.
  destruct (chr_spec 43 d r 0 ltac:(discriminate) Hs) as [[E _]|(x & y & -> & _ & E)]; rewrite E; cbn [bind]; [apply good_none|].
  rewrite Nat.add_0_l. rewrite split_cells. cbn [bind]. destruct (c_string_split _ _ _ Hs) as [Hx Hy].
  rewrite cstr_string by exact Hx. cbn [bind]. destruct (cipher_get _ _) as [i|] eqn:G; [|apply good_none].
  destruct (cipher_get_ci _ _ _ He G) as (c & -> & En & Hin). destruct (_ && _)%bool; [apply good_none|].
  assert (Hsk : skipn (List.length x + 1) (map Some (x ++ [0%N]) ++ map Some (y ++ [0%N]) ++ r) = map Some (y ++ [0%N]) ++ r).
  { rewrite skipn_app, map_length, app_length. cbn [List.length]. rewrite Nat.sub_diag. rewrite skipn_all2 by (rewrite map_length, app_length; cbn [List.length]; lia). reflexivity. }
  rewrite Hsk, cstr_string by exact Hy. cbn [bind]. destruct (cipher_get _ y) as [j|] eqn:G2; [|apply good_none].
  destruct (cipher_get_ci _ _ _ He G2) as (t & -> & En2 & Hin2). destruct (Nat.leb_spec (ci_iv (ci t)) COMMON_NONCEBYTES) as [_|Hiv]; [apply good_none|].
  exists (Some (M_composed (ci c) (ci t) mac)). split; [reflexivity|]. intros m X. injection X as <-. split; [repeat split; assumption|].
  apply H; [|intros ->; cbn in Hiv; lia]. rewrite En, En2. destruct c, t; reflexivity.
Qed.

(** the names with a suffix: [pre ++ lit] against a concrete name *)
Ltac suffix H := apply suffix_of in H; let A := fresh "A" in let B := fresh "B" in destruct H as [A B]; vm_compute in A; vm_compute in B; try discriminate B.

Lemma generic_umac_good : forall e name, env_ok e -> c_string name -> good e name GenericUmac (generic_umac e name).
Proof.
  intros e name He Hs. unfold generic_umac. cbv zeta. destruct (mac_get _ _) as [mac|] eqn:M; [|apply good_none].
  apply mac_get_some in M. destruct M as [Hm ->]. rewrite vla_ok by lia. cbn [bind].
  destruct (Nat.leb_spec 5 (List.length name)) as [Hl|_]; [|apply good_none]. rewrite tail_is_ok by lia. cbn [bind].
  destruct (bytes_eqb _ _) eqn:E; [|apply good_none]. apply (suffix_split name (str "+umac")) in E. change (List.length (str "+umac")) with 5 in E.
  rewrite build2 by (cbn [List.length]; lia). apply generic_end_good; [exact He | apply c_string_firstn; exact Hs | exact Hm|].
  intros c Hc Hn. exists (cname c ++ "+umac")%string. split; [rewrite E, Hc; destruct c; reflexivity | constructor; exact Hn].
Qed.

Lemma composed_umac_good : forall e name, env_ok e -> c_string name -> name <> [] -> good e name ComposedUmac (composed_umac e name).
Proof.
  intros e name He Hs H0. unfold composed_umac. cbv zeta. destruct (mac_get _ _) as [mac|] eqn:M; [|apply good_none].
  apply mac_get_some in M. destruct M as [Hm ->]. rewrite vla_ok by (destruct name; [congruence | discriminate]). cbn [bind].
  destruct (Nat.leb_spec 5 (List.length name)) as [Hl|_]; [|apply good_none]. rewrite tail_is_ok by lia. cbn [bind].
  destruct (bytes_eqb _ _) eqn:E; [|apply good_none]. apply (suffix_split name (str "+umac")) in E. change (List.length (str "+umac")) with 5 in E.
  rewrite build2 by (cbn [List.length]; lia). apply composed_end_good; [exact He | apply c_string_firstn; exact Hs | exact Hm|].
  intros c t Hc Hn. exists (cname c ++ "+" ++ cname t ++ "+umac")%string. split; [rewrite E, Hc; destruct c, t; reflexivity | constructor; exact Hn].
Qed.

Lemma firstn_more : forall (name : bytes) k x r, name = firstn k name ++ x :: r -> k <= List.length name -> firstn (S k) name = firstn k name ++ [x].
Proof.
  intros name k x r E Hk. transitivity (firstn (S k) (firstn k name ++ x :: r)); [f_equal; exact E|].
  assert (Hl : List.length (firstn k name) = k) by (rewrite firstn_length; lia).
  rewrite firstn_app, Hl. replace (S k - k) with 1 by lia. rewrite (firstn_all2 (n := S k)) by (rewrite Hl; lia). reflexivity.
Qed.

Lemma generic_gmac_good : forall e name, env_ok e -> c_string name -> good e name GenericGmac (generic_gmac e name).
Proof.
  intros e name He Hs. unfold generic_gmac. cbv zeta. destruct (mac_get _ _) as [mac|] eqn:M; [|apply good_none].
  apply mac_get_some in M. destruct M as [Hm ->]. rewrite vla_ok by lia. cbn [bind].
  assert (Hgcm : (if Nat.leb 4 (List.length name) then tail_is name (List.length name - 4) (str "-gcm") else Ok false) =
    Ok (Nat.leb 4 (List.length name) && bytes_eqb (skipn (List.length name - 4) name) (str "-gcm"))%bool).
  { destruct (Nat.leb_spec 4 (List.length name)); [rewrite tail_is_ok by lia|]; reflexivity. }
  rewrite Hgcm. cbn [bind]. clear Hgcm. destruct (_ && _)%bool eqn:E.
  - apply andb_true_iff in E. destruct E as [Hl E]. apply Nat.leb_le in Hl. apply (suffix_split name (str "-gcm")) in E. change (List.length (str "-gcm")) with 4 in E.
    rewrite build2 by (try change (List.length (str "ctr" ++ [0%N])) with 4; lia).
    assert (F : firstn (List.length name - 3) name = firstn (List.length name - 4) name ++ [45%N]).
    { replace (List.length name - 3) with (S (List.length name - 4)) by lia. apply firstn_more with (r := str "gcm"); [exact E | lia]. }
    rewrite F. rewrite (app_assoc (firstn (List.length name - 4) name ++ [45%N]) (str "ctr") [0%N]).
    apply generic_end_good; [exact He | | exact Hm|].
    + rewrite <- F. apply c_string_app; [apply c_string_firstn; exact Hs|]. vm_compute. intros X. repeat (destruct X as [X|X]; [discriminate|]). exact X.
    + intros c Hc Hn. exists (gcm_name c). split; [|constructor; exact Hn].
      rewrite <- app_assoc in Hc. change ([45%N] ++ str "ctr") with (str "-ctr") in Hc. rewrite E.
      set (q := firstn (List.length name - 4) name) in *. clearbody q. destruct c; try congruence; suffix Hc. rewrite A. reflexivity.
  - assert (Hp : (if Nat.leb 5 (List.length name) then tail_is name (List.length name - 5) (str "+gmac") else Ok false) =
      Ok (Nat.leb 5 (List.length name) && bytes_eqb (skipn (List.length name - 5) name) (str "+gmac"))%bool).
    { destruct (Nat.leb_spec 5 (List.length name)); [rewrite tail_is_ok by lia|]; reflexivity. }
    rewrite Hp. cbn [bind]. clear Hp E. destruct (_ && _)%bool eqn:E; [|apply good_none].
    apply andb_true_iff in E. destruct E as [Hl E]. apply Nat.leb_le in Hl. apply (suffix_split name (str "+gmac")) in E. change (List.length (str "+gmac")) with 5 in E.
    assert (Hp : (if Nat.leb 9 (List.length name) then tail_is name (List.length name - 9) (str "-ctr+gmac") else Ok false) =
      Ok (Nat.leb 9 (List.length name) && bytes_eqb (skipn (List.length name - 9) name) (str "-ctr+gmac"))%bool).
    { destruct (Nat.leb_spec 9 (List.length name)); [rewrite tail_is_ok by lia|]; reflexivity. }
    rewrite Hp. cbn [bind]. clear Hp. destruct (_ && _)%bool eqn:E2; [apply good_none|].
    rewrite build2 by (cbn [List.length]; lia). apply generic_end_good; [exact He | apply c_string_firstn; exact Hs | exact Hm|].
    intros c Hc Hn. exists (gcm_name c). split; [|constructor; exact Hn]. rewrite E, Hc in E2 |- *. destruct c; try congruence; try reflexivity. vm_compute in E2. discriminate.
Qed.

Lemma composed_gmac_good : forall e name, env_ok e -> c_string name -> name <> [] -> good e name ComposedGmac (composed_gmac e name).
Proof.
  intros e name He Hs H0. unfold composed_gmac. cbv zeta. destruct (mac_get _ _) as [mac|] eqn:M; [|apply good_none].
  apply mac_get_some in M. destruct M as [Hm ->]. rewrite vla_ok by (destruct name; [congruence | discriminate]). cbn [bind].
  assert (Hp : forall k lit, (if Nat.leb k (List.length name) then tail_is name (List.length name - k) lit else Ok false) =
    Ok (Nat.leb k (List.length name) && bytes_eqb (skipn (List.length name - k) name) lit)%bool).
  { intros k lit. destruct (Nat.leb_spec k (List.length name)); [rewrite tail_is_ok by lia|]; reflexivity. }
  rewrite Hp. cbn [bind]. destruct (_ && _)%bool eqn:E.
  - apply andb_true_iff in E. destruct E as [Hl E]. apply Nat.leb_le in Hl. apply (suffix_split name (str "-gmac")) in E. change (List.length (str "-gmac")) with 5 in E.
    rewrite build2 by (try (change (List.length (str "ctr" ++ [0%N])) with 4); lia).
    assert (F : firstn (List.length name - 4) name = firstn (List.length name - 5) name ++ [45%N]).
    { replace (List.length name - 4) with (S (List.length name - 5)) by lia. apply firstn_more with (r := str "gmac"); [exact E | lia]. }
    rewrite F. rewrite (app_assoc (firstn (List.length name - 5) name ++ [45%N]) (str "ctr") [0%N]).
    apply composed_end_good; [exact He | | exact Hm|].
    + rewrite <- F. apply c_string_app; [apply c_string_firstn; exact Hs|]. vm_compute. intros X. repeat (destruct X as [X|X]; [discriminate|]). exact X.
    + intros c t Hc Hn. exists (cname c ++ "+" ++ gmac_name t)%string. split; [|constructor; exact Hn].
      rewrite <- app_assoc in Hc. change ([45%N] ++ str "ctr") with (str "-ctr") in Hc. rewrite E.
      set (q := firstn (List.length name - 5) name) in *. clearbody q. destruct c, t; try congruence; suffix Hc; rewrite A; reflexivity.
  - rewrite Hp. cbn [bind]. clear E. destruct (_ && _)%bool eqn:E; [|apply good_none].
    apply andb_true_iff in E. destruct E as [Hl E]. apply Nat.leb_le in Hl. apply (suffix_split name (str "+gmac")) in E. change (List.length (str "+gmac")) with 5 in E.
    rewrite Hp. cbn [bind]. destruct (_ && _)%bool eqn:E2; [apply good_none|].
    rewrite build2 by (cbn [List.length]; lia). apply composed_end_good; [exact He | apply c_string_firstn; exact Hs | exact Hm|].
    intros c t Hc Hn. exists (cname c ++ "+" ++ gmac_name t)%string. split; [|constructor; exact Hn]. rewrite E, Hc in E2 |- *.
    destruct c, t; try congruence; try reflexivity; vm_compute in E2; discriminate.
Qed.

Lemma plain_good : forall e s p name, denotes s p M_none -> good e name p (plain (str s) name).
Proof.
  intros e s p name H. unfold plain. destruct (bytes_eqb name (str s)) eqn:E; [|apply good_none]. apply bytes_eqb_iff in E.
  eexists. split; [reflexivity|]. intros m X. injection X as <-. split; [exact I|]. exists s. split; assumption.
Qed.

Lemma create_good : forall p e name, env_ok e -> c_string name -> name <> [] -> good e name p (create p e name).
Proof.
  intros [] e name He Hs H0; cbn [create]; [apply cipher_test_good | apply composed_gmac_good | apply composed_umac_good | apply generic_gmac_good
    | apply poly1305_good | apply generic_umac_good | apply plain_good; constructor | apply plain_good; constructor]; assumption.
Qed.

(** ** The other direction *)
Lemma create_denotes : forall s p m e, env_ok e -> denotes s p m -> supports e m -> create p e (str s) = Ok (Some m).
Proof.
  intros s p m e He D Su.
  assert (M : forall x, In (x, true) (e_macs e) -> mac_get (e_macs e) x = Some x) by (intros x; apply mac_get_in; exact He).
  assert (G : forall c, In (ci c, true) (e_ciphers e) -> cipher_get (e_ciphers e) (str (cname c)) = Some (ci c)) by (intros c; apply cipher_get_in; exact He).
  destruct D; cbn [supports create] in *; try reflexivity;
  repeat match goal with H : _ /\ _ |- _ => destruct H end;
  repeat match goal with H : In (ci _, true) _ |- _ => apply G in H | H : In (_, true) (e_macs _) |- _ => apply M in H end;
  repeat match goal with c : cipher |- _ => destruct c end; try congruence;
  unfold cipher_test, composed_gmac, composed_umac, generic_gmac, generic_umac, generic_poly1305, composed_end, generic_end;
  repeat match goal with H : mac_get _ _ = Some _ |- _ => rewrite H; clear H end; clear M G; revert Su || idtac;
  generalize dependent (cipher_get (e_ciphers e)); intros cg;
  repeat match goal with |- cg _ = _ -> _ => let H := fresh "H" in intros H; vm_compute in H end; intros;
  repeat match goal with H : cg _ = Some _ |- _ => vm_compute in H end; vm_compute;
  repeat match goal with H : cg _ = Some _ |- _ => rewrite H; clear H end; try reflexivity.
Qed.

(** ** Names are unambiguous *)
Definition ciphers : list cipher := [Null; Aes128Ctr; Salsa20; Salsa2012].
Definition streams : list cipher := [Aes128Ctr; Salsa20; Salsa2012].
Definition table : list (string * (provider * method)) :=
  [("null", (PlainNull, M_none)); ("null@l2tp", (NullL2tp, M_none))]%string ++
  map (fun c => (cname c ++ "+cipher-test", (CipherTest, M_cipher (ci c)))%string) ciphers ++
  map (fun c => (cname c ++ "+poly1305", (GenericPoly1305, M_cipher (ci c)))%string) streams ++
  map (fun c => (gcm_name c, (GenericGmac, M_generic (ci c) (str "ghash")))) streams ++
  map (fun c => (cname c ++ "+umac", (GenericUmac, M_generic (ci c) (str "uhash")))%string) streams ++
  flat_map (fun c => map (fun t => (cname c ++ "+" ++ gmac_name t, (ComposedGmac, M_composed (ci c) (ci t) (str "ghash")))%string) streams) ciphers ++
  flat_map (fun c => map (fun t => (cname c ++ "+" ++ cname t ++ "+umac", (ComposedUmac, M_composed (ci c) (ci t) (str "uhash")))%string) streams) ciphers.

Lemma in_ciphers : forall c, In c ciphers.
Proof. intros []; cbn; tauto. Qed.
Lemma in_streams : forall c, c <> Null -> In c streams.
Proof. intros [] H; cbn; tauto. Qed.

Lemma denotes_table : forall s p m, denotes s p m -> In (s, (p, m)) table.
Proof.
  intros s p m D. unfold table. repeat rewrite in_app_iff. destruct D.
  - left. left. reflexivity.
  - left. right. left. reflexivity.
  - right. left. apply in_map_iff. exists c. split; [reflexivity | apply in_ciphers].
  - right. right. left. apply in_map_iff. exists c. split; [reflexivity | apply in_streams; exact H].
  - right. right. right. left. apply in_map_iff. exists c. split; [reflexivity | apply in_streams; exact H].
  - right. right. right. right. left. apply in_map_iff. exists c. split; [reflexivity | apply in_streams; exact H].
  - do 5 right. left. apply in_flat_map. exists c. split; [apply in_ciphers|]. apply in_map_iff. exists t. split; [reflexivity | apply in_streams; exact H].
  - do 6 right. apply in_flat_map. exists c. split; [apply in_ciphers|]. apply in_map_iff. exists t. split; [reflexivity | apply in_streams; exact H].
Qed.

Lemma nodup_fst : forall A B (l : list (A * B)) a b b', NoDup (map fst l) -> In (a, b) l -> In (a, b') l -> b = b'.
Proof.
  intros A B l a b b'. induction l as [|[x y] l IH]; intros N H1 H2; [destruct H1|]. inversion N as [|? ? N1 N2]; subst.
  destruct H1 as [E1|H1], H2 as [E2|H2].
  - congruence.
  - injection E1 as -> ->. exfalso. apply N1. apply in_map with (f := fst) in H2. exact H2.
  - injection E2 as -> ->. exfalso. apply N1. apply in_map with (f := fst) in H1. exact H1.
  - apply IH; assumption.
Qed.
Lemma nodup_snd : forall A B (l : list (A * B)) a a' b, NoDup (map snd l) -> In (a, b) l -> In (a', b) l -> a = a'.
Proof.
  intros A B l a a' b. induction l as [|[x y] l IH]; intros N H1 H2; [destruct H1|]. inversion N as [|? ? N1 N2]; subst.
  destruct H1 as [E1|H1], H2 as [E2|H2].
  - congruence.
  - injection E1 as -> ->. exfalso. apply N1. apply in_map with (f := snd) in H2. exact H2.
  - injection E2 as -> ->. exfalso. apply N1. apply in_map with (f := snd) in H1. exact H1.
  - apply IH; assumption.
Qed.

Definition cipher_info_dec : forall a b : cipher_info, {a = b} + {a <> b}.
Proof. decide equality; [apply Nat.eq_dec | apply (list_eq_dec N.eq_dec)]. Defined.
Definition provider_dec : forall a b : provider, {a = b} + {a <> b}.
Proof. decide equality. Defined.
Definition method_dec : forall a b : method, {a = b} + {a <> b}.
Proof. decide equality; try apply cipher_info_dec; apply (list_eq_dec N.eq_dec). Defined.
Definition pm_dec : forall a b : provider * method, {a = b} + {a <> b}.
Proof. decide equality; [apply method_dec | apply provider_dec]. Defined.

Lemma table_names : NoDup (map fst table).
Proof. assert (E : nodup string_dec (map fst table) = map fst table) by (vm_compute; reflexivity). rewrite <- E. apply NoDup_nodup. Qed.
Lemma table_methods : NoDup (map snd table).
Proof. assert (E : nodup pm_dec (map snd table) = map snd table) by (vm_compute; reflexivity). rewrite <- E. apply NoDup_nodup. Qed.

Lemma denotes_unique : forall s p m p' m', denotes s p m -> denotes s p' m' -> p = p' /\ m = m'.
Proof.
  intros s p m p' m' H1 H2. apply denotes_table in H1, H2. pose proof (nodup_fst _ _ _ _ _ _ table_names H1 H2) as E.
  injection E as -> ->. split; reflexivity.
Qed.
Lemma denotes_injective : forall s s' p m, denotes s p m -> denotes s' p m -> s = s'.
Proof. intros s s' p m H1 H2. apply denotes_table in H1, H2. exact (nodup_snd _ _ _ _ _ _ table_methods H1 H2). Qed.

Lemma str_inj : forall s s', str s = str s' -> s = s'.
Proof.
  intros s s' H. rewrite <- (string_of_list_ascii_of_string s), <- (string_of_list_ascii_of_string s'). f_equal.
  unfold str in H. revert H. generalize (list_ascii_of_string s) (list_ascii_of_string s').
  intros l. induction l as [|a l IH]; intros [|b l']; cbn [map]; intros H; try discriminate; [reflexivity|].
  injection H as E1 E2. apply (f_equal Ascii.ascii_of_N) in E1. rewrite !Ascii.ascii_N_embedding in E1. rewrite (IH l' E2), E1. reflexivity.
Qed.

Lemma denotes_nonempty : forall s p m, denotes s p m -> str s <> [] /\ c_string (str s).
Proof.
  intros s p m H. apply denotes_table in H.
  assert (T : forallb (fun t => (0 <? List.length (str (fst t))) && negb (existsb (N.eqb 0) (str (fst t))))%bool table = true) by (vm_compute; reflexivity).
  rewrite forallb_forall in T. apply T in H. cbn [fst] in H. apply andb_true_iff in H. destruct H as [H1 H2]. apply Nat.ltb_lt in H1. split.
  - intros E. rewrite E in H1. cbn in H1. lia.
  - intros X. apply negb_true_iff in H2. assert (existsb (N.eqb 0) (str s) = true) by (apply existsb_exists; exists 0%N; split; [exact X | reflexivity]). congruence.
Qed.

(** ** [fastd_method_create_by_name] *)
Lemma create_by_name_total : forall e ps name, env_ok e -> c_string name -> name <> [] ->
  exists r, create_by_name e ps name = Ok r /\
    forall p m, r = Some (p, m) <-> (In p ps /\ supports e m /\ exists s, name = str s /\ denotes s p m).
Proof.
  intros e ps name He Hs H0. induction ps as [|p ps IH].
  - exists None. split; [reflexivity|]. intros p m. split; [discriminate | intros ([] & _)].
  - cbn [create_by_name]. destruct (create_good p e name He Hs H0) as (o & E & Ho). rewrite E. cbn [bind]. destruct o as [m|].
    + destruct (Ho m eq_refl) as (Su & s & En & D). exists (Some (p, m)). split; [reflexivity|]. intros p' m'. split.
      * intros X. injection X as <- <-. split; [left; reflexivity|]. split; [exact Su|]. exists s. split; assumption.
      * intros (_ & _ & s' & En' & D'). rewrite En in En'. apply str_inj in En'. subst s'. destruct (denotes_unique _ _ _ _ _ D D') as [-> ->]. reflexivity.
    + destruct IH as (r & Er & Hr). exists r. split; [exact Er|]. intros p' m'. rewrite Hr. split.
      * intros (A & B). split; [right; exact A | exact B].
      * intros ([<- | A] & Su & s & En & D); [|split; [exact A|]; split; [exact Su | exists s; split; assumption]].
        exfalso. rewrite En in E. rewrite (create_denotes s p m' e He D Su) in E. discriminate.
Qed.

(** ** The configured methods *)
Lemma contains_spec : forall l s, contains l s = true <-> In s l.
Proof.
  intros l s. unfold contains. rewrite existsb_exists. split.
  - intros (x & Hx & E). apply bytes_eqb_iff in E. subst x. exact Hx.
  - intros H. exists s. split; [exact H | apply bytes_eqb_iff; reflexivity].
Qed.

Definition add_all (ms : list bytes) (acc : list bytes * nat) : list bytes * nat :=
  fold_left (fun '(l, n) m => if contains l m then (l, n) else (m :: l, S n)) ms acc.
Definition acc_ok (acc : list bytes * nat) : Prop := NoDup (fst acc) /\ snd acc = List.length (fst acc).

Lemma add_all_spec : forall ms acc, acc_ok acc -> acc_ok (add_all ms acc) /\ forall s, In s (fst (add_all ms acc)) <-> In s (fst acc) \/ In s ms.
Proof.
  intros ms. induction ms as [|m ms IH]; intros [l n] [N E]; cbn [add_all fold_left].
  - split; [split; assumption|]. intros s. cbn [fst In]. tauto.
  - cbn [fst snd] in *. destruct (contains l m) eqn:C.
    + apply contains_spec in C. destruct (IH (l, n)) as [A B]; [split; assumption|]. split; [exact A|]. intros s. rewrite (B s). cbn [fst In]. intuition congruence.
    + destruct (IH (m :: l, S n)) as [A B].
      { split; cbn [fst snd List.length]; [|congruence]. constructor; [intros X; apply contains_spec in X; congruence | exact N]. }
      split; [exact A|]. intros s. rewrite (B s). cbn [fst In]. tauto.
Qed.

Section GroupInd.
  Variable Q : group -> Prop.
  Hypothesis HQ : forall ms ch, Forall Q ch -> Q (Group ms ch).
  Fixpoint group_ind2 (g : group) : Q g :=
    match g with
    | Group ms ch => HQ ms ch ((fix go l : Forall Q l := match l with [] => Forall_nil _ | c :: r => Forall_cons _ (group_ind2 c) (go r) end) ch)
    end.
End GroupInd.

Lemma collect_eq : forall ms ch acc, collect (Group ms ch) acc = fold_left (fun acc c => collect c acc) ch (add_all ms acc).
Proof. reflexivity. Qed.

Lemma used_group : forall ms ch s, used (Group ms ch) s <-> In s ms \/ exists c, In c ch /\ used c s.
Proof.
  intros ms ch s. split.
  - intros (g & T & H). inversion T; subst; [left; exact H|]. right. exists c. split; [assumption|]. exists g. split; assumption.
  - intros [H | (c & Hc & g & T & H)]; [exists (Group ms ch); split; [constructor | exact H]|].
    exists g. split; [econstructor; eassumption | exact H].
Qed.

Lemma collect_spec : forall g acc, acc_ok acc -> acc_ok (collect g acc) /\ forall s, In s (fst (collect g acc)) <-> In s (fst acc) \/ used g s.
Proof.
  intros g. induction g as [ms ch IH] using group_ind2. intros acc Ha. rewrite collect_eq.
  destruct (add_all_spec ms acc Ha) as [A B].
  assert (X : forall acc', acc_ok acc' -> acc_ok (fold_left (fun acc c => collect c acc) ch acc') /\
    forall s, In s (fst (fold_left (fun acc c => collect c acc) ch acc')) <-> In s (fst acc') \/ exists c, In c ch /\ used c s).
  { clear A B. induction IH as [|c ch Hc _ IHch]; intros acc' Ha'; cbn [fold_left].
    - split; [exact Ha'|]. intros s. split; [tauto | intros [H | (c & [] & _)]; exact H].
    - destruct (Hc acc' Ha') as [A B]. destruct (IHch _ A) as [A2 B2]. split; [exact A2|]. intros s. rewrite (B2 s), (B s). split.
      + intros [[H|H]|(c' & H1 & H2)]; [left; exact H | right; exists c; split; [left; reflexivity | exact H] | right; exists c'; split; [right; exact H1 | exact H2]].
      + intros [H|(c' & [<-|H1] & H2)]; [left; left; exact H | left; right; exact H2 | right; exists c'; split; assumption]. }
  destruct (X _ A) as [A2 B2]. split; [exact A2|]. intros s. rewrite (B2 s), (B s), used_group. tauto.
Qed.

(** names of the filled array *)
Lemma fill_spec : forall e ps names n, env_ok e -> (forall s, In s names -> c_string s /\ s <> []) -> List.length names < n ->
  ((exists s, In s names /\ create_by_name e ps s = Ok None) /\ fill e ps names n = Fatal) \/
  ((forall s, In s names -> exists p m, create_by_name e ps s = Ok (Some (p, m))) /\
   exists t, fill e ps names n = Ok t /\
     (forall s, In s names -> exists p m, get_by_name t s = Ok (Some (s, p, m)) /\ create_by_name e ps s = Ok (Some (p, m))) /\
     (forall s, ~ In s names -> get_by_name t s = Ok None)).
Proof.
  intros e ps names. induction names as [|s names IH]; intros n He Hs Hn.
  - right. split; [intros s []|]. cbn [fill]. eexists. split; [destruct n; reflexivity|]. split; [intros s []|].
    intros s _. destruct n as [|n]; [cbn in Hn; lia | reflexivity].
  - destruct n as [|n]; [cbn in Hn; lia|]. cbn [fill]. destruct (create_by_name_total e ps s He (proj1 (Hs s (or_introl eq_refl))) (proj2 (Hs s (or_introl eq_refl)))) as (r & E & _).
    rewrite E. cbn [bind]. destruct r as [[p m]|].
    + destruct (IH n He (fun s H => Hs s (or_intror H)) ltac:(cbn in Hn; lia)) as [[(s' & H1 & H2) F] | [H1 (t & F & H2 & H3)]]; rewrite F; cbn [bind].
      * left. split; [exists s'; split; [right; exact H1 | exact H2] | reflexivity].
      * right. split; [intros s' [<-|H']; [exists p, m; exact E | apply H1; exact H']|]. eexists. split; [reflexivity|]. split.
        -- intros s' H'. cbn [get_by_name]. destruct (bytes_eqb s s') eqn:Eb.
           ++ apply bytes_eqb_iff in Eb. subst s'. exists p, m. split; [reflexivity | exact E].
           ++ destruct H' as [->|H']; [assert (bytes_eqb s' s' = true) by (apply bytes_eqb_iff; reflexivity); congruence|]. apply H2. exact H'.
        -- intros s' H'. cbn [get_by_name]. destruct (bytes_eqb s s') eqn:Eb; [apply bytes_eqb_iff in Eb; exfalso; apply H'; left; exact Eb|].
           apply H3. intros X. apply H'. right. exact X.
    + left. split; [exists s; split; [left; reflexivity | exact E] | reflexivity].
Qed.

(** the tree with the fallback of [fastd_config_check] *)
Lemma configured : forall e ps root, env_ok e -> (forall s, used root s -> c_string s /\ s <> []) ->
  let root' := match root with Group [] ch => Group [str "null"] ch | _ => root end in
  ((exists s, used root' s /\ create_by_name e ps s = Ok None) /\ config_check e ps root = Fatal) \/
  (exists t, config_check e ps root = Ok (root', t) /\
     (forall s, used root' s -> exists p m, get_by_name t s = Ok (Some (s, p, m)) /\ create_by_name e ps s = Ok (Some (p, m))) /\
     (forall s, ~ used root' s -> get_by_name t s = Ok None)).
Proof.
  intros e ps root He Hu root'.
  assert (Hr : config_check e ps root = do t <- configure_methods e ps root'; Ok (root', t)).
  { unfold root'. destruct root as [[|m ms] ch]; reflexivity. }
  assert (Hu' : forall s, used root' s -> c_string s /\ s <> []).
  { intros s. unfold root'. destruct root as [[|m ms] ch]; [|apply Hu]. rewrite used_group. intros [[<-|[]]|H].
    - split; [|discriminate]. intros X. vm_compute in X. repeat (destruct X as [X|X]; [discriminate|]). exact X.
    - apply Hu. rewrite used_group. right. exact H. }
  rewrite Hr. unfold configure_methods. destruct (collect_spec root' ([], 0)) as [[N E] B]; [split; [constructor | reflexivity]|].
  destruct (collect root' ([], 0)) as [l n]. cbn [fst snd] in *.
  assert (B' : forall s, In s l <-> used root' s) by (intros s; rewrite (B s); cbn [In]; tauto).
  destruct (fill_spec e ps l (n + 1) He) as [[(s & H1 & H2) F] | [_ (t & F & H2 & H3)]].
  - intros s H. apply Hu', B', H.
  - lia.
  - left. split; [exists s; split; [apply B'; exact H1 | exact H2]|]. rewrite F. reflexivity.
  - right. exists t. rewrite F. split; [reflexivity|]. split.
    + intros s H. apply H2, B', H.
    + intros s H. apply H3. intros X. apply H, B', X.
Qed.

(** The list that the method lines of a file make *)
Lemma contains_in l s : contains l s = true <-> In s l.
Proof.
  unfold contains. rewrite existsb_exists. split; [intros (y & H & E); apply bytes_eqb_iff in E; now subst y | intros H; exists s; split; [exact H | now apply bytes_eqb_iff]].
Qed.
Lemma preference ns : let l := fold_left config_method ns [] in
  NoDup l /\ (forall s, In s l <-> In s ns) /\
  forall ns1 s ns2, ns = ns1 ++ s :: ns2 -> ~ In s ns1 -> exists l1 l2, l = l1 ++ s :: l2 /\ forall t, In t l1 <-> In t ns1.
Proof.
  induction ns as [|n ns IH] using rev_ind; cbv zeta in *.
  - cbn. split; [constructor|split; [tauto|]]. intros ns1 s ns2 E. destruct ns1; discriminate E.
  - rewrite fold_left_app. cbn [fold_left]. set (l := fold_left config_method ns []) in *. destruct IH as (ND & M & P).
    assert (C : forall ns1 s ns2, ns ++ [n] = ns1 ++ s :: ns2 -> (ns1 = ns /\ s = n) \/ exists ns2', ns = ns1 ++ s :: ns2').
    { intros ns1 s ns2 E. destruct ns2 as [|y ns2] using rev_ind.
      - left. apply app_inj_tail in E. destruct E as [-> ->]. now split.
      - right. exists ns2. change (ns1 ++ s :: ns2 ++ [y]) with (ns1 ++ (s :: ns2) ++ [y]) in E. rewrite app_assoc in E. now apply app_inj_tail in E. }
    unfold config_method. destruct (contains l n) eqn:E.
    + assert (Hn : In n l) by now apply contains_in. split; [exact ND|split].
      * intros s. rewrite in_app_iff, <- M. cbn. split; [tauto | intros [H|[->|[]]]; assumption].
      * intros ns1 s ns2 H Hs. destruct (C _ _ _ H) as [[-> ->] | (ns2' & ->)]; [exfalso; apply Hs, M, Hn | exact (P _ _ _ eq_refl Hs)].
    + assert (Hn : ~ In n l) by (intros X; apply contains_in in X; congruence). split; [|split].
      * apply NoDup_rev in ND. rewrite <- (rev_involutive (l ++ [n])). apply NoDup_rev. rewrite rev_app_distr. cbn. constructor; [now rewrite <- in_rev | exact ND].
      * intros s. rewrite !in_app_iff, <- M. tauto.
      * intros ns1 s ns2 H Hs. destruct (C _ _ _ H) as [[-> ->] | (ns2' & ->)].
        -- exists l, []. split; [reflexivity | exact M].
        -- destruct (P _ _ _ eq_refl Hs) as (l1 & l2 & E1 & E2). exists l1, (l2 ++ [n]). split; [rewrite E1, <- app_assoc; reflexivity | exact E2].
Qed.
Lemma providers_complete s p m : denotes s p m -> In p all_providers.
Proof. intros [ | | | | | | | ]; cbn; tauto. Qed.
