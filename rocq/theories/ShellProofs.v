(** Lemmas about the environment of shell commands. *)
From Verif Require Import Base BaseLemmas BufferModel MethodModel NameModel NameProofs AddrModel AddrProofs HexModel HexSpec HexProofs ShellModel ShellSpec.
From Coq Require Import String.

(** * Decimal numbers *)
Lemma dval_app : forall s t, dval (s ++ t) = fold_left (fun v c => 10 * v + (c - 48))%N t (dval s).
Proof. intros s t. unfold dval. apply fold_left_app. Qed.

Lemma dec_loop_spec : forall f n acc, (n < 10 ^ N.of_nat (S f))%N ->
  exists d, dec_loop (S f) n acc = d ++ acc /\ decimal d n /\ forall k, k <> 0 -> (n < 10 ^ N.of_nat k)%N -> List.length d <= k.
Proof.
  induction f as [|f IH]; intros n acc Hn.
  - change (10 ^ N.of_nat 1)%N with 10%N in Hn. cbn [dec_loop].
    exists [(48 + n mod 10)%N]. rewrite N.mod_small by exact Hn. rewrite N.div_small by exact Hn. cbn [N.eqb].
    split; [reflexivity|]. split; [|intros k Hk _; cbn; lia].
    unfold decimal. split; [discriminate|]. split; [intros c [<-|[]]; lia|]. split; [unfold dval; cbn [fold_left]; lia|].
    cbn [hd]. intros ->. reflexivity.
  - change (dec_loop (S (S f)) n acc) with
      (let a := (48 + n mod 10)%N :: acc in if (n / 10 =? 0)%N then a else dec_loop (S f) (n / 10) a). cbv zeta.
    destruct (n / 10 =? 0)%N eqn:E.
    + apply N.eqb_eq in E. assert (Hs : (n < 10)%N) by lia. exists [(48 + n mod 10)%N]. rewrite N.mod_small by exact Hs.
      split; [reflexivity|]. split; [|intros k Hk _; cbn; lia].
      unfold decimal. split; [discriminate|]. split; [intros c [<-|[]]; lia|]. split; [unfold dval; cbn [fold_left]; lia|].
      cbn [hd]. intros ->. reflexivity.
    + apply N.eqb_neq in E. destruct (IH (n / 10)%N ((48 + n mod 10)%N :: acc)) as (d & D1 & D2 & D3).
      { replace (N.of_nat (S (S f))) with (N.of_nat (S f) + 1)%N in Hn by lia. rewrite N.pow_add_r, N.pow_1_r in Hn.
        apply N.div_lt_upper_bound; lia. }
      exists (d ++ [(48 + n mod 10)%N]). split; [rewrite D1, <- app_assoc; reflexivity|]. split.
      * destruct D2 as (E1 & E2 & E3 & E4). unfold decimal. split; [destruct d; discriminate|]. split; [|split].
        -- intros c Hc. apply in_app_or in Hc. destruct Hc as [Hc|[<-|[]]]; [now apply E2|lia].
        -- rewrite dval_app, E3. cbn [fold_left]. lia.
        -- destruct d as [|x d]; [contradiction|]. cbn [app hd]. cbn [hd] in E4. intros Hx. exfalso.
           specialize (E4 Hx). injection E4 as -> ->. unfold dval in E3. cbn [fold_left] in E3. lia.
      * intros k Hk Hnk. rewrite app_length. cbn [List.length]. destruct k as [|[|k]]; [contradiction| |].
        -- change (10 ^ N.of_nat 1)%N with 10%N in Hnk. lia.
        -- specialize (D3 (S k) ltac:(discriminate)). assert (List.length d <= S k); [apply D3|lia].
           replace (N.of_nat (S (S k))) with (N.of_nat (S k) + 1)%N in Hnk by lia. rewrite N.pow_add_r, N.pow_1_r in Hnk.
           apply N.div_lt_upper_bound; lia.
Qed.

Lemma dec_ok : forall n k, k <> 0 -> k <= 20 -> (n < 10 ^ N.of_nat k)%N -> decimal (dec n) n /\ List.length (dec n) <= k.
Proof.
  intros n k Hk Hk2 Hn. unfold dec. destruct (dec_loop_spec 19 n []) as (d & D1 & D2 & D3).
  - eapply N.lt_le_trans; [exact Hn|]. apply N.pow_le_mono_r; lia.
  - rewrite D1, app_nil_r. split; [exact D2|]. now apply D3.
Qed.

Lemma decimal_zero_free : forall s n, decimal s n -> zero_free s.
Proof. intros s n (_ & H & _) c Hc. specialize (H c Hc). lia. Qed.

(** * Buffers *)
Lemma put_start : forall (b : cells) (x : bytes), List.length x <= List.length b -> put b 0 x = Ok (map Some x ++ skipn (List.length x) b).
Proof. intros b x H. unfold put. cbn [plus firstn app]. rewrite (proj2 (Nat.leb_le _ _)) by lia. reflexivity. Qed.

Lemma put_one : forall (t u : bytes) c x (r : cells), put (map Some (t ++ c :: u) ++ r) (List.length t) [x] = Ok (map Some (t ++ x :: u) ++ r).
Proof.
  intros t u c x r. unfold put. rewrite app_length, map_length, app_length. cbn [List.length].
  rewrite (proj2 (Nat.leb_le _ _)) by lia. f_equal. rewrite !map_app, <- !app_assoc. cbn [map app].
  rewrite firstn_app, map_length, Nat.sub_diag. cbn [firstn]. rewrite firstn_all2 by (rewrite map_length; lia). rewrite app_nil_r. f_equal.
  rewrite skipn_app, map_length. rewrite skipn_all2 by (rewrite map_length; lia). cbn [app].
  replace (List.length t + 1 - List.length t) with 1 by lia. reflexivity.
Qed.

Lemma print_u_ok : forall b n k, k <> 0 -> k <= 20 -> (n < 10 ^ N.of_nat k)%N -> k < List.length b ->
  exists b' s, print_u b n = Ok b' /\ cstr b' = Ok s /\ decimal s n.
Proof.
  intros b n k Hk Hk2 Hn Hb. destruct (dec_ok n k Hk Hk2 Hn) as (D1 & D2).
  unfold print_u, snprintf_s. destruct (List.length b) as [|m] eqn:E; [lia|].
  rewrite firstn_all2 by lia. rewrite put_start by (rewrite app_length; cbn [List.length]; lia).
  eexists. exists (dec n). split; [reflexivity|]. split; [|exact D1].
  rewrite map_app, <- app_assoc. cbn [map app]. apply cstr_text. exact (decimal_zero_free _ _ D1).
Qed.

Lemma set_iface_ok : forall l ifname mtu, (mtu < 2 ^ 16)%N ->
  exists v, set_iface l ifname mtu = Ok (l ++ [(str "INTERFACE", ifname); (str "INTERFACE_MTU", v)]) /\
  (if (mtu =? 0)%N then v = None else is_num mtu v).
Proof.
  intros l ifname mtu Hm. unfold set_iface, env_set. destruct (mtu =? 0)%N eqn:E; cbn [negb].
  - exists None. rewrite <- app_assoc. split; reflexivity.
  - destruct (print_u_ok (repeat None 6) mtu 5) as (b & s & P1 & P2 & P3); [discriminate|lia| |rewrite repeat_length; lia|].
    + change (10 ^ N.of_nat 5)%N with 100000%N. change (2 ^ 16)%N with 65536%N in Hm. lia.
    + rewrite P1. cbn [bind]. rewrite P2. cbn [bind]. exists (Some s). rewrite <- app_assoc. split; [reflexivity|]. now exists s.
Qed.

Lemma ntop_ok : forall t n, List.length t < n -> inet_ntop (repeat None n) t = Ok (map Some (t ++ [0%N]) ++ repeat None (n - List.length t - 1)).
Proof.
  intros t n H. unfold inet_ntop. rewrite repeat_length. rewrite (proj2 (Nat.leb_le _ _)) by lia.
  rewrite put_front by (rewrite app_length; cbn [List.length]; lia). f_equal. f_equal. f_equal. rewrite app_length. cbn [List.length]. lia.
Qed.

Lemma cstr_app : forall (s : bytes) r, zero_free s -> cstr (map Some (s ++ [0%N]) ++ r) = Ok s.
Proof. intros s r H. rewrite map_app, <- app_assoc. cbn [map app]. apply cstr_text. exact H. Qed.

Lemma port_lt : forall p, List.length p = 2 -> wf_bytes p -> (be_val p < 10 ^ N.of_nat 5)%N.
Proof.
  intros p Hl Hw. destruct p as [|a [|b [|c p]]]; try discriminate Hl.
  inversion Hw as [|? ? Ha Hw']; subst. inversion Hw' as [|? ? Hb _]; subst. unfold is_byte in *.
  cbn [be_val List.length]. change (10 ^ N.of_nat 5)%N with 100000%N. change (2 ^ (8 * N.of_nat 1))%N with 256%N. change (2 ^ (8 * N.of_nat 0))%N with 1%N. lia.
Qed.

Lemma set_addr_ok : forall L l a av pv, libc_ok L -> addr_ok a ->
  exists va vp, set_addr L l a av pv = Ok (l ++ [(av, va); (pv, vp)]) /\ is_addr L a va /\ is_port a vp.
Proof.
  intros L l a av pv (L4 & L6 & Li) Ha. unfold set_addr, env_set.
  change (INET6_ADDRSTRLEN + IFNAMSIZ) with 62.
  destruct a as [[|ip port|ip port flow scope|f]|].
  - exists None, None. rewrite <- app_assoc. repeat split.
  - destruct (L4 ip) as (T1 & T2). destruct Ha as (_ & _ & P1 & P2).
    rewrite ntop_ok by lia. cbn [bind]. rewrite cstr_app by exact T2. cbn [bind].
    destruct (print_u_ok (map Some (l_ntop4 L ip ++ [0%N]) ++ repeat None (62 - List.length (l_ntop4 L ip) - 1)) (be_val port) 5) as (b & s & Q1 & Q2 & Q3);
      [discriminate|lia|now apply port_lt|rewrite app_length, map_length, app_length, repeat_length; cbn [List.length]; lia|].
    rewrite Q1. cbn [bind]. rewrite Q2. cbn [bind]. exists (Some (l_ntop4 L ip)), (Some s).
    rewrite <- app_assoc. split; [reflexivity|]. split; [reflexivity|]. now exists s.
  - destruct (L6 ip) as (T1 & T2). destruct Ha as (_ & _ & P1 & P2 & _).
    rewrite ntop_ok by lia. cbn [bind]. rewrite !cstr_app by exact T2. cbn [bind].
    set (t := l_ntop6 L ip) in *.
    match goal with |- context [bind ?m _] => assert (G : exists b t', m = Ok b /\ 62 <= List.length b /\ cstr b = Ok t' /\ is_addr L (Some (AInet6 ip port flow scope)) (Some t')) end.
    { cbn [is_addr]. fold t. destruct (is_linklocal ip).
      - destruct (l_ifname L scope) as [n|] eqn:En.
        + destruct (Li _ _ En) as (N1 & N2). clearbody t. unfold bytes, byte in *.
          pose proof (put_next (t ++ [0%N]) (n ++ repeat 0%N (IFNAMSIZ - List.length n)) (62 - List.length t - 1)) as Hp.
          rewrite !app_length, repeat_length in Hp. cbn [List.length] in Hp. unfold bytes, byte in Hp. rewrite Hp by (unfold IFNAMSIZ; lia). clear Hp. cbn [bind].
          assert (Hc : cstr (map Some ((t ++ [0%N]) ++ n ++ repeat 0%N (IFNAMSIZ - List.length n)) ++
                        repeat None (62 - List.length t - 1 - (List.length n + (IFNAMSIZ - List.length n)))) = Ok t).
          { rewrite map_app, <- app_assoc. now apply cstr_app. }
          unfold byte in Hc. unfold bytes, byte. rewrite Hc. clear Hc. cbn [bind].
          rewrite <- (app_assoc t). cbn [app]. rewrite put_one.
          eexists. exists (t ++ [37%N] ++ n). split; [reflexivity|]. split; [|split; [|reflexivity]].
          * rewrite app_length, map_length, app_length. cbn [List.length]. rewrite !app_length, !repeat_length. unfold IFNAMSIZ. unfold bytes, byte in *. lia.
          * unfold IFNAMSIZ. destruct (16 - List.length n) as [|z] eqn:Ez; [unfold bytes, byte in *; lia|]. cbn [repeat].
            match goal with |- cstr (map Some ?x ++ _) = _ => replace x with (((t ++ [37%N] ++ n) ++ [0%N]) ++ repeat 0%N z) by (rewrite <- !app_assoc; reflexivity) end.
            rewrite map_app, <- app_assoc. apply cstr_app.
            intros c Hc. apply in_app_or in Hc. destruct Hc as [Hc|Hc]; [now apply T2|]. destruct Hc as [<-|Hc]; [discriminate|now apply N2].
        + eexists. exists t. split; [reflexivity|]. split; [|split].
          * rewrite app_length, map_length, app_length, repeat_length. cbn [List.length]. lia.
          * now apply cstr_app.
          * now rewrite app_nil_r.
      - eexists. exists t. split; [reflexivity|]. split; [|split].
        + rewrite app_length, map_length, app_length, repeat_length. cbn [List.length]. lia.
        + now apply cstr_app.
        + now rewrite app_nil_r. }
    destruct G as (b & t' & -> & B1 & B2 & B3). cbn [bind]. rewrite B2. cbn [bind].
    destruct (print_u_ok b (be_val port) 5) as (b' & s & Q1 & Q2 & Q3); [discriminate|lia|now apply port_lt|lia|].
    rewrite Q1. cbn [bind]. rewrite Q2. cbn [bind]. exists (Some t'), (Some s).
    rewrite <- app_assoc. split; [reflexivity|]. split; [exact B3|]. now exists s.
  - exists None, None. rewrite <- app_assoc. repeat split.
  - exists None, None. rewrite <- app_assoc. repeat split.
Qed.

Lemma hexdump_cstr : forall k, key_ok k -> exists b s, hexdump k = Ok b /\ cstr b = Ok s /\ hex_of s k.
Proof.
  intros k (Hl & Hw). exists (map Some (text k ++ [0%N])), (text k).
  split; [now apply hexdump_spec|]. split.
  - rewrite <- (app_nil_r (map Some (text k ++ [0%N]))). apply cstr_app. intros c Hc. now apply (text_chars k).
  - split; [now apply text_spells|]. intros c Hc. now apply (text_chars k).
Qed.

Lemma set_keys_ok : forall l key p, key_ok key -> (forall q, p = Some q -> peer_ok q) ->
  exists v1 v2, set_keys l key p = Ok (l ++ [(str "LOCAL_KEY", v1); (str "PEER_KEY", v2)]) /\ is_key key v1 /\
  match p with Some p => is_key (p_key p) v2 | None => unset v2 end.
Proof.
  intros l key p Hk Hp. unfold set_keys, env_set. destruct (hexdump_cstr key Hk) as (b & s & H1 & H2 & H3).
  rewrite H1. cbn [bind]. rewrite H2. cbn [bind]. destruct p as [p|].
  - destruct (hexdump_cstr (p_key p) (proj1 (Hp p eq_refl))) as (b' & s' & H1' & H2' & H3').
    rewrite H1'. cbn [bind]. rewrite H2'. cbn [bind]. exists (Some s), (Some s'). rewrite <- app_assoc.
    split; [reflexivity|]. split; [now exists s|now exists s'].
  - exists (Some s), None. rewrite <- app_assoc. split; [reflexivity|]. split; [now exists s|reflexivity].
Qed.

Lemma set_peer_ok : forall L key p local remote, libc_ok L -> key_ok key -> (forall q, p = Some q -> peer_ok q) -> addr_ok local -> addr_ok remote ->
  exists vm va vp wa wp v1 v2,
    set_peer L key [] p local remote = Ok
      [(str "PEER_NAME", match p with Some p => p_name p | None => None end); (str "INTERFACE", option_map fst (peer_iface p)); (str "INTERFACE_MTU", vm);
       (str "LOCAL_ADDRESS", va); (str "LOCAL_PORT", vp); (str "PEER_ADDRESS", wa); (str "PEER_PORT", wp); (str "LOCAL_KEY", v1); (str "PEER_KEY", v2)] /\
    is_mtu (peer_iface p) vm /\ is_addr L local va /\ is_port local vp /\ is_addr L remote wa /\ is_port remote wp /\ is_key key v1 /\
    match p with Some p => is_key (p_key p) v2 | None => unset v2 end.
Proof.
  intros L key p local remote HL Hk Hp Hlo Hre. unfold set_peer.
  match goal with |- context [let '(_, _) := ?m in _] =>
    assert (G : exists m', m = (option_map fst (peer_iface p), m') /\ (m' < 2 ^ 16)%N /\
      forall v, (if (m' =? 0)%N then v = None else is_num m' v) -> is_mtu (peer_iface p) v) end.
  { destruct p as [p|]; cbn [peer_iface option_map].
    - pose proof (proj2 (Hp p eq_refl)) as Hm. destruct (p_offload p) as [[n m]|].
      + exists m. cbn [option_map fst is_mtu]. split; [reflexivity|]. split; [apply (Hm n m); now left|auto].
      + destruct (p_iface p) as [[n m]|].
        * exists m. cbn [option_map fst is_mtu]. split; [reflexivity|]. split; [apply (Hm n m); now right|auto].
        * exists 0%N. split; [reflexivity|]. split; [reflexivity|auto].
    - exists 0%N. split; [reflexivity|]. split; [reflexivity|auto]. }
  destruct G as (m' & -> & G2 & G3).
  match goal with |- context [set_iface ?l ?i m'] => destruct (set_iface_ok l i m' G2) as (vm & -> & M) end. cbn [bind].
  match goal with |- context [set_addr L ?l local ?x ?y] => destruct (set_addr_ok L l local x y HL Hlo) as (va & vp & -> & A1 & A2) end. cbn [bind].
  match goal with |- context [set_addr L ?l remote ?x ?y] => destruct (set_addr_ok L l remote x y HL Hre) as (wa & wp & -> & B1 & B2) end. cbn [bind].
  match goal with |- context [set_keys ?l key p] => destruct (set_keys_ok l key p Hk Hp) as (v1 & v2 & -> & K1 & K2) end.
  exists vm, va, vp, wa, wp, v1, v2. split; [reflexivity|]. split; [now apply G3|].
  split; [exact A1|]. split; [exact A2|]. split; [exact B1|]. split; [exact B2|]. split; [exact K1|exact K2].
Qed.

(** * Looking up *)
Lemma setenv_same : forall e k v, setenv e k v k = v.
Proof. intros e k v. unfold setenv. now rewrite (proj2 (bytes_eqb_iff k k) eq_refl). Qed.
Lemma setenv_other : forall e k v x, x <> k -> setenv e k v x = e x.
Proof.
  intros e k v x H. unfold setenv. destruct (bytes_eqb x k) eqn:E; [|reflexivity]. apply bytes_eqb_iff in E. contradiction.
Qed.

Lemma apply_other : forall l e x, ~ In x (map fst l) -> apply_entries e l x = e x.
Proof.
  induction l as [|(k, v) l IH]; intros e x H; [reflexivity|]. cbn [apply_entries fold_left fst snd]. cbn [map fst] in H.
  unfold apply_entries in IH. rewrite IH by (intros Hx; apply H; now right). apply setenv_other. intros ->. apply H. now left.
Qed.
Lemma apply_in : forall l e k v, NoDup (map fst l) -> In (k, v) l -> apply_entries e l k = v.
Proof.
  induction l as [|(k', v') l IH]; intros e k v Hn Hi; [contradiction|]. cbn [map fst] in Hn. inversion Hn as [|? ? H1 H2]; subst.
  cbn [apply_entries fold_left fst snd]. destruct Hi as [E|Hi].
  - injection E as -> ->. change (apply_entries (setenv e k v) l k = v). rewrite apply_other by exact H1. apply setenv_same.
  - apply IH; assumption.
Qed.

Lemma command_env_ok : forall pid l inh, (pid < 2 ^ 32)%N -> NoDup (map fst l) -> ~ In (str "FASTD_PID") (map fst l) -> ~ In (str "NOTIFY_SOCKET") (map fst l) ->
  exists e, command_env pid (Some l) inh = Ok e /\ (forall k v, In (k, v) l -> e k = v) /\
  is_num pid (e (str "FASTD_PID")) /\ e (str "NOTIFY_SOCKET") = None /\
  (forall x, x <> str "FASTD_PID" -> x <> str "NOTIFY_SOCKET" -> ~ In x (map fst l) -> e x = inh x).
Proof.
  intros pid l inh Hp Hn H1 H2. unfold command_env.
  destruct (print_u_ok (repeat None 20) pid 10) as (b & s & P1 & P2 & P3); [discriminate|lia| |rewrite repeat_length; lia|].
  - change (10 ^ N.of_nat 10)%N with 10000000000%N. change (2 ^ 32)%N with 4294967296%N in Hp. lia.
  - rewrite P1. cbn [bind]. rewrite P2. cbn [bind]. eexists. split; [reflexivity|].
    split; [intros k v Hi; now apply apply_in|]. split; [|split].
    + rewrite apply_other by exact H1. rewrite setenv_same. now exists s.
    + rewrite apply_other by exact H2. rewrite setenv_other by (intros E; discriminate E). apply setenv_same.
    + intros x X1 X2 X3. rewrite apply_other by exact X3. rewrite setenv_other by exact X1. now apply setenv_other.
Qed.

Ltac pick := first [left; reflexivity|right; pick].
Ltac nodup := repeat (apply NoDup_cons; [vm_compute; intuition discriminate|]); apply NoDup_nil.

Lemma peer_env : forall L key pid p local remote inh, libc_ok L -> key_ok key -> (pid < 2 ^ 32)%N ->
  (forall q, p = Some q -> peer_ok q) -> addr_ok local -> addr_ok remote ->
  exists e, (do l <- (do l <- set_peer L key [] p local remote; Ok (Some l)); command_env pid l inh) = Ok e /\
  env_is pid (peer_vars L key p local remote) inh e.
Proof.
  intros L key pid p local remote inh HL Hk Hpid Hp Hlo Hre.
  destruct (set_peer_ok L key p local remote HL Hk Hp Hlo Hre) as (vm & va & vp & wa & wp & v1 & v2 & -> & M & A1 & A2 & B1 & B2 & K1 & K2).
  cbn [bind].
  match goal with |- context [command_env pid (Some ?l) inh] => destruct (command_env_ok pid l inh Hpid) as (e & Hce & E1 & E2 & E3 & E4) end;
    [cbn [map fst]; nodup|vm_compute; intuition discriminate|vm_compute; intuition discriminate|].
  exists e. split; [exact Hce|]. split; [|split; [exact E2|split; [exact E3|]]].
  - intros k P Hi. cbn [peer_vars In] in Hi.
    repeat (destruct Hi as [Hi|Hi]; [injection Hi as <- <-; (erewrite E1 by pick); solve [assumption|reflexivity|destruct p; exact K2]|]). contradiction.
  - intros x Hx. apply E4.
    + intros ->. apply Hx. now left.
    + intros ->. apply Hx. right. now left.
    + intros Hi. apply Hx. right. right. cbn [map fst peer_vars In] in *. tauto.
Qed.

Lemma iface_env : forall pid n m inh, (pid < 2 ^ 32)%N -> (m < 2 ^ 16)%N ->
  exists e, (do l <- (do l <- set_iface [] (Some n) m; Ok (Some l)); command_env pid l inh) = Ok e /\
  env_is pid [("INTERFACE"%string, is_text (Some n)); ("INTERFACE_MTU"%string, is_mtu (Some (n, m)))] inh e.
Proof.
  intros pid n m inh Hpid Hm. destruct (set_iface_ok [] (Some n) m Hm) as (v & -> & M). cbn [bind app].
  match goal with |- context [command_env pid (Some ?l) inh] => destruct (command_env_ok pid l inh Hpid) as (e & Hce & E1 & E2 & E3 & E4) end;
    [cbn [map fst]; nodup|vm_compute; intuition discriminate|vm_compute; intuition discriminate|].
  exists e. split; [exact Hce|]. split; [|split; [exact E2|split; [exact E3|]]].
  - intros k P [Hi|[Hi|[]]]; injection Hi as <- <-; (erewrite E1 by pick); [reflexivity|exact M].
  - intros x Hx. apply E4.
    + intros ->. apply Hx. now left.
    + intros ->. apply Hx. right. now left.
    + intros Hi. apply Hx. right. right. exact Hi.
Qed.

Lemma null_env : forall pid inh, (pid < 2 ^ 32)%N -> exists e, command_env pid None inh = Ok e /\ env_is pid [] inh e.
Proof.
  intros pid inh Hpid. destruct (command_env_ok pid [] inh Hpid) as (e & H & E1 & E2 & E3 & E4); [constructor|auto|auto|].
  exists e. split; [exact H|]. split; [intros k P []|]. split; [exact E2|]. split; [exact E3|].
  intros x Hx. apply E4; [| |auto]; intros ->; apply Hx; cbn; auto.
Qed.

Lemma run_env_ok : forall L key pid c inh, libc_ok L -> key_ok key -> (pid < 2 ^ 32)%N -> command_ok c ->
  exists e, run_env L key pid c inh = Ok e /\ env_is pid (vars L key c) inh e.
Proof.
  intros L key pid c inh HL Hk Hpid Hc. unfold run_env.
  assert (S1 : forall p, peer_ok p -> forall q, Some p = Some q -> peer_ok q) by (intros p Hp q E; injection E as <-; exact Hp).
  destruct c as [| |n m|n m|p|p|p lo bo re|p lo re|p lo re|p lo re]; cbn [entries vars command_ok] in *.
  - now apply null_env.
  - now apply null_env.
  - now apply iface_env.
  - now apply iface_env.
  - apply peer_env; try assumption; try exact Logic.I. now apply S1.
  - apply peer_env; try assumption; try exact Logic.I. now apply S1.
  - destruct Hc as (C1 & C2 & C3 & C4).
    replace (if has_family lo then lo else bo) with (match lo with Some AUnspec | None => bo | _ => lo end) by (destruct lo as [[]|]; reflexivity).
    apply peer_env; try assumption. destruct lo as [[]|]; assumption.
  - destruct Hc as (C1 & C2 & C3). apply peer_env; try assumption. now apply S1.
  - destruct Hc as (C1 & C2 & C3). apply peer_env; try assumption. now apply S1.
  - destruct Hc as (C1 & C2 & C3). apply peer_env; try assumption. now apply S1.
Qed.

(** * Groups *)
Lemma lookup_nearest : forall (A : Type) (parents : list (option A)) group,
  match group_lookup group parents with
  | Some a => exists l r, group :: parents = l ++ Some a :: r /\ Forall (fun g => g = None) l
  | None => Forall (fun g => g = None) (group :: parents)
  end.
Proof.
  intros A. induction parents as [|p r IH]; intros group.
  - cbn. destruct group as [a|]; [exists [], []; split; [reflexivity|constructor]|repeat constructor].
  - cbn [group_lookup]. destruct group as [a|].
    + exists [], (p :: r). split; [reflexivity|constructor].
    + specialize (IH p). destruct (group_lookup p r) as [a|].
      * destruct IH as (l & r' & E & F). exists (None :: l), r'. split; [cbn; now rewrite E|]. now constructor.
      * now constructor.
Qed.
