(** Proofs about the notification of systemd and the service of Android. *)
From Verif Require Import Base BaseLemmas BufferModel MethodModel NameModel HexProofs HexModel ShellModel ShellSpec ShellProofs SuperModel SuperSpec.
From Coq Require Import String.
Local Open Scope N_scope.

Lemma read_cells_map l x n : (n <= List.length l)%nat -> read_cells (map Some l ++ x) n = Ok (firstn n l).
Proof.
  revert n. induction l as [|b l IH]; intros [|n] H; cbn [List.length] in H; try reflexivity; [lia|].
  cbn [map app read_cells firstn]. rewrite IH by lia. reflexivity.
Qed.

Lemma strncpy_path s :
  strncpy (map Some [1; 0] ++ repeat (Some 0) SUN_PATH) 2 s SUN_PATH =
  Ok (map Some ([1; 0] ++ firstn SUN_PATH s ++ repeat 0 (SUN_PATH - List.length s))).
Proof.
  unfold strncpy, put.
  assert (L : List.length (firstn SUN_PATH s ++ repeat 0 (SUN_PATH - List.length s)) = SUN_PATH).
  { rewrite app_length, firstn_length, repeat_length. lia. }
  rewrite L, app_length, map_length, repeat_length. cbn [List.length].
  rewrite (proj2 (Nat.leb_le (2 + SUN_PATH) (2 + SUN_PATH))) by lia.
  rewrite (skipn_all2 (n := (2 + SUN_PATH)%nat)) by (rewrite app_length, map_length, repeat_length; cbn [List.length]; lia).
  rewrite app_nil_r. set (d := firstn SUN_PATH s ++ repeat 0 (SUN_PATH - List.length s)). clearbody d. reflexivity.
Qed.

Definition first_char (c : N) : N := if c =? 64 then 0 else c.

Lemma notify_exact c r so co pid :
  zero_free (c :: r) -> (c = 64 \/ c = 47) -> r <> [] ->
  notify_systemd (Some (c :: r)) so co pid =
  if so then
    let arg := [1; 0; first_char c] ++ firstn 107 r in
    if co then Ok [NSocket; NConnect arg; NSend (str "READY=1" ++ [10] ++ str "MAINPID=" ++ dec pid); NClose]
    else Ok [NSocket; NConnect arg; NClose]
  else Ok [NSocket].
Proof.
  intros Z C R. unfold notify_systemd.
  change (char_at (c :: r) 0) with (Ok c). cbn [bind].
  destruct r as [|c1 r]; [congruence|].
  change (char_at (c :: c1 :: r) 1) with (Ok c1).
  assert (Z1 : (c1 =? 0) = false) by (apply N.eqb_neq, Z; right; now left).
  assert (B : negb (c =? 64) && negb (c =? 47) = false) by (destruct C as [-> | ->]; reflexivity).
  rewrite B. cbn [bind]. rewrite Z1. destruct so; cbn [negb]; [|reflexivity].
  change (put (repeat (Some 0) (2 + SUN_PATH)) 0 (le_bytes 2 AF_UNIX)) with (Ok (map Some [1; 0] ++ repeat (Some 0) SUN_PATH)).
  cbn [bind]. rewrite strncpy_path. cbn [bind].
  set (z := repeat 0 (SUN_PATH - List.length (c :: c1 :: r))).
  change (firstn SUN_PATH (c :: c1 :: r)) with (c :: firstn 107 (c1 :: r)).
  set (m := firstn 107 (c1 :: r)).
  assert (Lm : List.length m = Nat.min 107 (List.length (c1 :: r))) by apply firstn_length.
  assert (Ln : strnlen (c :: c1 :: r) SUN_PATH = S (List.length m)).
  { unfold strnlen. rewrite Lm. change SUN_PATH with (S 107). change (List.length (c :: c1 :: r)) with (S (List.length (c1 :: r))).
    rewrite <- Nat.succ_min_distr. f_equal. apply Nat.min_comm. }
  rewrite Ln. clearbody z m. clear Ln Lm.
  change (nth_error (map Some ([1; 0] ++ (c :: m) ++ z)) 2) with (Some (Some c)). cbn [bind].
  assert (E : (if c =? 64 then put (map Some ([1; 0] ++ (c :: m) ++ z)) 2 [0] else Ok (map Some ([1; 0] ++ (c :: m) ++ z))) =
              Ok (map Some ([1; 0; first_char c] ++ m ++ z) ++ [])).
  { rewrite app_nil_r. unfold first_char. destruct (c =? 64); [|reflexivity]. unfold put.
    cbn [app map List.length]. cbn [Nat.add Nat.leb firstn skipn app map]. reflexivity. }
  match goal with |- bind ?X _ = _ => replace X with (Ok (map Some ([1; 0; first_char c] ++ m ++ z) ++ []) : res cells) by (symmetry; exact E) end.
  cbn [bind]. rewrite read_cells_map.
  - cbn [bind]. rewrite app_assoc. rewrite firstn_app.
    assert (L3 : List.length ([1; 0; first_char c] ++ m) = (2 + S (List.length m))%nat) by (rewrite app_length; reflexivity).
    rewrite <- L3, Nat.sub_diag, firstn_all, firstn_O, app_nil_r. reflexivity.
  - rewrite !app_length. cbn [List.length]. lia.
Qed.

Lemma until_zero_free l : zero_free l -> until_zero l = l.
Proof.
  induction l as [|b l IH]; intros Z; [reflexivity|]. cbn [until_zero].
  rewrite (proj2 (N.eqb_neq b 0)) by (apply Z; now left). rewrite IH; [reflexivity|].
  intros x Hx. apply Z. now right.
Qed.

Lemma zero_free_firstn n l : zero_free l -> zero_free (firstn n l).
Proof. intros Z x Hx. apply Z. rewrite <- (firstn_skipn n l). apply in_or_app. now left. Qed.

Lemma dec_pid pid : pid < 2 ^ 32 -> decimal (dec pid) pid.
Proof. intros H. apply (dec_ok pid 10); [lia|lia|]. change (10 ^ N.of_nat 10) with 10000000000. lia. Qed.

Lemma meant_cases s :
  match meant s with
  | None => match s with 64 :: _ :: _ => False | 47 :: _ :: _ => False | _ => True end
  | Some n => exists c x r, s = c :: x :: r /\ ((c = 64 /\ n = Abstract (x :: r)) \/ (c = 47 /\ n = Path s))
  end.
Proof.
  destruct s as [|c s]; [exact I|].
  destruct (N.eq_dec c 64) as [->|H1]; [destruct s as [|x r]; [exact I|exists 64, x, r; split; [reflexivity|left; split; reflexivity]]|].
  destruct (N.eq_dec c 47) as [->|H2]; [destruct s as [|x r]; [exact I|exists 47, x, r; split; [reflexivity|right; split; reflexivity]]|].
  destruct s as [|x r].
  - destruct c as [|c]; [exact I|]. do 7 (try (destruct c as [c|c|]; try exact I)).
  - destruct c as [|c]; [exact I|]. do 7 (try (destruct c as [c|c|]; try exact I)); congruence.
Qed.

Lemma notify_none s so co pid : zero_free s -> meant s = None -> notify_systemd (Some s) so co pid = Ok [].
Proof.
  intros Z H. unfold notify_systemd. destruct s as [|c s]; [reflexivity|].
  change (char_at (c :: s) 0) with (Ok c). cbn [bind].
  destruct (negb (c =? 64) && negb (c =? 47)) eqn:B; [reflexivity|].
  destruct s as [|x r]; [reflexivity|]. exfalso.
  apply andb_false_iff in B. destruct B as [B|B]; apply negb_false_iff, N.eqb_eq in B; subst c; discriminate H.
Qed.

Lemma super_notify var so co pid :
  (forall s, var = Some s -> c_string s) -> pid < 2 ^ 32 ->
  exists tr, notify_systemd var so co pid = Ok tr /\
    notified (match var with Some s => meant (firstn 108 s) | None => None end) so co pid tr.
Proof.
  intros V Hp. destruct var as [s|]; [|exists []; split; reflexivity].
  destruct (V s eq_refl) as [_ Z]. clear V.
  pose proof (meant_cases s) as C. destruct (meant s) as [n|] eqn:E.
  - destruct C as (c & x & r & -> & C).
    rewrite notify_exact; [|exact Z|destruct C as [[-> _]|[-> _]]; [now left|now right]|discriminate].
    assert (M : meant (firstn 108 (c :: x :: r)) = denotes ([1; 0; first_char c] ++ firstn 107 (x :: r))).
    { destruct C as [[-> _]|[-> _]]; [reflexivity|].
      transitivity (Some (Path (47 :: firstn 107 (x :: r)))); [reflexivity|].
      change (Some (Path (47 :: firstn 107 (x :: r))) = Some (Path (until_zero (47 :: firstn 107 (x :: r))))).
      rewrite until_zero_free; [reflexivity|]. apply (zero_free_firstn 108) in Z. exact Z. }
    assert (N1 : exists n', meant (firstn 108 (c :: x :: r)) = Some n').
    { destruct C as [[-> _]|[-> _]]; eexists; reflexivity. }
    destruct N1 as (n' & N1). rewrite N1 in M. unfold notified. rewrite N1.
    destruct so; [|exists [NSocket]; split; reflexivity].
    cbv zeta. set (arg := [1; 0; first_char c] ++ firstn 107 (x :: r)) in *. clearbody arg.
    pose (msg := str "READY=1" ++ [10] ++ str "MAINPID=" ++ dec pid).
    assert (R : ready msg pid) by (exists (dec pid); split; [exact (dec_pid _ Hp)|reflexivity]).
    destruct co.
    + exists [NSocket; NConnect arg; NSend msg; NClose]. split; [reflexivity|].
      exists arg, msg. split; [symmetry; exact M|]. split; [exact R|reflexivity].
    + exists [NSocket; NConnect arg; NClose]. split; [reflexivity|].
      exists arg, msg. split; [symmetry; exact M|]. split; [exact R|reflexivity].
  - exists []. split; [exact (notify_none s so co pid Z E)|].
    assert (M : meant (firstn 108 s) = None).
    { destruct s as [|c [|x r]]; [reflexivity|exact E|].
      destruct (meant (firstn 108 (c :: x :: r))) as [n|] eqn:F; [|reflexivity]. exfalso.
      pose proof (meant_cases (firstn 108 (c :: x :: r))) as C2. rewrite F in C2.
      destruct C2 as (c' & x' & r' & E2 & C2).
      change (firstn 108 (c :: x :: r)) with (c :: x :: firstn 106 r) in E2. injection E2 as -> -> _.
      destruct C2 as [[-> _]|[-> _]]; exact C. }
    rewrite M. reflexivity.
Qed.

(** A name that is too long *)
Lemma super_notify_long s co pid tr :
  c_string s -> (108 < List.length s)%nat -> notify_systemd (Some s) true co pid = Ok tr -> meant s <> None ->
  exists sa, In (NConnect sa) tr /\ denotes sa <> meant s.
Proof.
  intros [W Z] L E M. pose proof (meant_cases s) as C. destruct (meant s) as [n|] eqn:Em; [|congruence].
  destruct C as (c & x & r & -> & C).
  rewrite notify_exact in E; [|exact Z|destruct C as [[-> _]|[-> _]]; [now left|now right]|discriminate].
  exists ([1; 0; first_char c] ++ firstn 107 (x :: r)). split.
  - destruct co; injection E as <-; right; now left.
  - assert (S : List.length (firstn 107 (x :: r)) = 107%nat) by (rewrite firstn_length; cbn [List.length] in *; lia).
    set (f := firstn 107 (x :: r)) in *.
    assert (Zf : zero_free (47 :: f)).
    { intros y [<-|Hy]; [discriminate|]. apply Z. right. unfold f in Hy. rewrite <- (firstn_skipn 107 (x :: r)). apply in_or_app. now left. }
    clearbody f. intros D. destruct C as [[-> ->]|[-> ->]].
    + change (Some (Abstract f) = Some (Abstract (x :: r))) in D. injection D as D.
      rewrite D in S. cbn [List.length] in *. lia.
    + change (Some (Path (until_zero (47 :: f))) = Some (Path (47 :: x :: r))) in D.
      rewrite until_zero_free in D by exact Zf. injection D as D.
      rewrite D in S. cbn [List.length] in *. lia.
Qed.

(** ** Android *)

Lemma put_read l : (List.length l <= 20)%nat ->
  put (repeat None 20) 0 l = Ok (map Some l ++ skipn (List.length l) (repeat None 20)).
Proof.
  intros H. unfold put. rewrite repeat_length. cbn [Nat.add]. rewrite (proj2 (Nat.leb_le _ _) H). reflexivity.
Qed.

Lemma protect_cases d fd a : proper_answer a ->
  protect_socket true d fd a =
  match an_sent a, an_read a with
  | true, Some (c :: _) => Ok (c =? 88, [SendFd (d_ctrl d) (d_conn d) fd])
  | true, Some [] => UB
  | _, _ => Fatal
  end.
Proof.
  intros H. unfold protect_socket, proper_answer in *. cbn [negb].
  destruct (an_sent a); [|destruct (an_read a) as [[|]|]; reflexivity]. cbn [negb].
  destruct (an_read a) as [l|]; [|reflexivity]. rewrite put_read by exact H. cbn [bind].
  destruct l as [|c l]; reflexivity.
Qed.

(** What becomes of a socket *)
Lemma super_answer pid d start fd a : proper_answer a ->
  astep true pid d (OpBind start fd a) =
  match an_sent a, an_read a with
  | true, Some [] => UB
  | true, Some (c :: _) =>
      if c =? 88 then Ok (d, [SendFd (d_ctrl d) (d_conn d) fd; Uses fd])
      else if start then Fatal else Ok (d, [SendFd (d_ctrl d) (d_conn d) fd; Closes fd])
  | _, _ => Fatal
  end.
Proof.
  intros H. cbn [astep]. rewrite protect_cases by exact H.
  destruct (an_sent a); [|destruct (an_read a) as [[|]|]; reflexivity].
  destruct (an_read a) as [[|c l]|]; [reflexivity| |reflexivity]. cbn [bind].
  destruct (c =? 88); [reflexivity|]. destruct start; reflexivity.
Qed.

Lemma recv_none : ancil_recv_fd (Some []) = Ok (Some (-1)%Z).
Proof. vm_compute. reflexivity. Qed.

Lemma recv_carries ctl fd : carries ctl fd -> ancil_recv_fd (Some ctl) = Ok (Some (Z.of_N fd)).
Proof.
  intros [Hf ->].
  assert (L : List.length (le_bytes 4 fd) = 4%nat) by apply le_bytes_length.
  assert (V : le_val (le_bytes 4 fd) = fd).
  { rewrite le_val_le_bytes. change (8 * N.of_nat 4) with 32. apply N.mod_small. lia. }
  set (b := le_bytes 4 fd) in *. clearbody b. destruct b as [|b0 [|b1 [|b2 [|b3 [|]]]]]; try discriminate L.
  unfold ancil_recv_fd. change (le_bytes 8 20 ++ le_bytes 4 1 ++ le_bytes 4 1 ++ [b0; b1; b2; b3])
    with [20; 0; 0; 0; 0; 0; 0; 0; 1; 0; 0; 0; 1; 0; 0; 0; b0; b1; b2; b3].
  cbn [List.length Nat.ltb Nat.leb]. rewrite skipn_all2 by (vm_compute; lia). rewrite app_nil_r.
  cbn [skipn firstn]. rewrite V.
  change (Z.eqb (signed32 (((le_val [20; 0; 0; 0; 0; 0; 0; 0] + 2 ^ 64 - 16) mod 2 ^ 64 / 4) mod 2 ^ 32)) 1) with true. cbv iota.
  unfold signed32. rewrite (proj2 (N.ltb_lt fd (2 ^ 31))) by exact Hf. reflexivity.
Qed.

Lemma pid_text pid : pid < 2 ^ 32 ->
  exists b s, print_u (repeat None 20) (pid mod 2 ^ 32) = Ok b /\ cstr b = Ok s /\ decimal s pid.
Proof.
  intros H. rewrite N.mod_small by exact H.
  apply (print_u_ok (repeat None 20) pid 10); [lia|lia| |rewrite repeat_length; lia].
  change (10 ^ N.of_nat 10) with 10000000000. lia.
Qed.

Lemma super_iface pid d sock conn recv w : pid < 2 ^ 32 -> proper_op (OpIface sock conn recv w) ->
  exists t, decimal t pid /\
    match sock with
    | Some c =>
        if conn && Z.eqb w (Z.of_nat (List.length t)) then
          (exists fd, holds recv fd /\ astep true pid d (OpIface sock conn recv w) = Ok (mk_dev c true, [SendPid c true t; Tun fd])) \/
          ((forall fd, ~ holds recv fd) /\ astep true pid d (OpIface sock conn recv w) = Bug)
        else astep true pid d (OpIface sock conn recv w) = Fatal
    | None => astep true pid d (OpIface sock conn recv w) = Fatal
    end.
Proof.
  intros Hp [Hr Hw]. destruct (pid_text pid Hp) as (b & t & T1 & T2 & T3). exists t. split; [exact T3|].
  cbn [astep negb]. destruct sock as [c|]; [|reflexivity]. unfold receive_tunfd.
  destruct conn; [|reflexivity]. cbn [negb andb].
  assert (Lt : (Z.of_nat (List.length t) < 2 ^ 63)%Z).
  { assert (L : (List.length t <= 20)%nat); [|lia].
    destruct (dec_ok pid 10) as (_ & L); [lia|lia|change (10 ^ N.of_nat 10) with 10000000000; lia|].
    assert (E : t = dec pid); [|rewrite E; lia].
    rewrite N.mod_small in T1 by exact Hp. unfold print_u, snprintf_s in T1. rewrite repeat_length in T1. cbv iota in T1.
    rewrite firstn_all2 in T1 by lia. rewrite put_read in T1 by (rewrite app_length; cbn [List.length]; lia).
    injection T1 as <-. rewrite map_app, <- app_assoc in T2. cbn [map app] in T2.
    rewrite cstr_text in T2; [injection T2 as <-; reflexivity|].
    refine (decimal_zero_free _ _ (dec_pid pid Hp)). }
  assert (Sp : send_pid (mk_dev c true) pid w = if Z.eqb w (Z.of_nat (List.length t)) then Ok [SendPid c true t] else Fatal).
  { unfold send_pid. rewrite T1. cbn [bind]. rewrite T2. cbn [bind d_ctrl d_conn].
    destruct (Z.eqb_spec w (Z.of_nat (List.length t))) as [->|Nw].
    - rewrite Z.mod_small by lia. rewrite Z.eqb_refl. reflexivity.
    - assert (M : Z.eqb (w mod 2 ^ 64) (Z.of_nat (List.length t)) = false); [|rewrite M; reflexivity].
      apply Z.eqb_neq. destruct (Z.ltb_spec w 0) as [Lw|Gw].
      + assert (w = (-1)%Z) by lia. subst w. change ((-1) mod 2 ^ 64)%Z with (2 ^ 64 - 1)%Z. lia.
      + rewrite Z.mod_small by lia. exact Nw. }
  assert (K : forall h, ancil_recv_fd recv = Ok h ->
    (do x <- (do h <- ancil_recv_fd recv; Ok (mk_dev c true, match h with Some fd => fd | None => -1 end)%Z);
     let '(d0, h0) := x in do acts <- send_pid d0 pid w;
     if (h0 <? 0)%Z then Bug else Ok (d0, acts ++ [Tun (Z.to_N h0)])) =
    (if Z.eqb w (Z.of_nat (List.length t)) then
       if (match h with Some fd => fd | None => -1 end <? 0)%Z then Bug
       else Ok (mk_dev c true, [SendPid c true t; Tun (Z.to_N (match h with Some fd => fd | None => -1 end)%Z)]) else Fatal)).
  { intros h E. rewrite E. cbn [bind]. rewrite Sp. destruct (Z.eqb w (Z.of_nat (List.length t))); reflexivity. }
  destruct recv as [ctl|].
  - destruct Hr as [->|(fd & F)].
    + rewrite (K _ recv_none). destruct (Z.eqb w (Z.of_nat (List.length t))); [|reflexivity].
      right. split; [|reflexivity]. intros fd (ctl & E & _ & F). injection E as <-. discriminate F.
    + rewrite (K _ (recv_carries _ _ F)). destruct (Z.eqb w (Z.of_nat (List.length t))); [|reflexivity].
      left. exists fd. split; [exists ctl; split; [reflexivity|exact F]|].
      rewrite (proj2 (Z.ltb_ge (Z.of_N fd) 0)) by lia. rewrite N2Z.id. reflexivity.
  - rewrite (K None eq_refl). destruct (Z.eqb w (Z.of_nat (List.length t))); [|reflexivity].
    right. split; [|reflexivity]. intros fd (ctl & E & _). discriminate E.
Qed.

(** One operation that succeeds *)
Lemma step_cases pid d o d' e : pid < 2 ^ 32 -> proper_op o -> astep true pid d o = Ok (d', e) ->
  match o with
  | OpBind start fd a =>
      d' = d /\ an_sent a = true /\
      ((granted a /\ e = [SendFd (d_ctrl d) (d_conn d) fd; Uses fd]) \/
       (~ granted a /\ e = [SendFd (d_ctrl d) (d_conn d) fd; Closes fd]))
  | OpIface sock conn recv w =>
      exists c fd t, sock = Some c /\ conn = true /\ holds recv fd /\ decimal t pid /\ w = Z.of_nat (List.length t) /\
        d' = mk_dev c true /\ e = [SendPid c true t; Tun fd]
  end.
Proof.
  intros Hp Ho E. destruct o as [start fd a|sock conn recv w].
  - rewrite super_answer in E by exact Ho. unfold granted.
    destruct (an_sent a) eqn:Es; [|destruct (an_read a) as [[|]|]; discriminate E].
    destruct (an_read a) as [[|c l]|] eqn:Er; try discriminate E.
    destruct (N.eqb_spec c 88) as [->|Nc].
    + injection E as <- <-. split; [reflexivity|]. split; [reflexivity|]. left. split; [|reflexivity].
      split; [reflexivity|]. exists l. reflexivity.
    + destruct start; [discriminate E|]. injection E as <- <-. split; [reflexivity|]. split; [reflexivity|]. right.
      split; [|reflexivity]. intros (_ & r & Hr). injection Hr as -> _. congruence.
  - destruct (super_iface pid d sock conn recv w Hp Ho) as (t & T & C). destruct sock as [c|]; [|rewrite C in E; discriminate E].
    destruct (conn && Z.eqb w (Z.of_nat (List.length t))) eqn:B; [|rewrite C in E; discriminate E].
    apply andb_true_iff in B as [B1 B2]. apply Z.eqb_eq in B2.
    destruct C as [(fd & F & C)|[_ C]]; rewrite C in E; [|discriminate E]. injection E as <- <-.
    exists c, fd, t. split; [reflexivity|]. split; [exact B1|]. split; [exact F|]. split; [exact T|]. split; [exact B2|]. split; reflexivity.
Qed.

Lemma run_cons pid d o l d' tr : arun true pid d (o :: l) = Ok (d', tr) ->
  exists d1 e1 e2, astep true pid d o = Ok (d1, e1) /\ arun true pid d1 l = Ok (d', e2) /\ tr = e1 ++ e2.
Proof.
  cbn [arun]. intros E. destruct (astep true pid d o) as [[d1 e1]| | |]; try discriminate E. cbn [bind] in E.
  destruct (arun true pid d1 l) as [[d2 e2]| | |] eqn:E2; try discriminate E. cbn [bind] in E. injection E as <- <-.
  exists d1, e1, e2. split; [reflexivity|]. split; [exact E2|reflexivity].
Qed.

Lemma super_protected pid : pid < 2 ^ 32 -> forall l d d' tr, Forall proper_op l -> arun true pid d l = Ok (d', tr) ->
  forall tr1 fd tr2, tr = tr1 ++ Uses fd :: tr2 ->
    (exists start a, In (OpBind start fd a) l /\ granted a) /\ exists tr0 over conn, tr1 = tr0 ++ [SendFd over conn fd].
Proof.
  intros Hp. induction l as [|o l IH]; intros d d' tr F E tr1 fd tr2 Et.
  - injection E as _ <-. destruct tr1; discriminate Et.
  - destruct (run_cons _ _ _ _ _ _ E) as (d1 & e1 & e2 & E1 & E2 & ->). inversion_clear F as [|? ? Fo Fl].
    assert (Rest : forall tr1', e2 = tr1' ++ Uses fd :: tr2 -> tr1 = e1 ++ tr1' ->
      (exists start a, In (OpBind start fd a) (o :: l) /\ granted a) /\ exists tr0 over conn, tr1 = tr0 ++ [SendFd over conn fd]).
    { intros t' X1 X2. destruct (IH d1 d' e2 Fl E2 t' fd tr2 X1) as ((st & a & I1 & I2) & tr0 & ov & cn & X3).
      split; [exists st, a; split; [now right|exact I2]|]. exists (e1 ++ tr0), ov, cn. rewrite X2, X3, app_assoc. reflexivity. }
    pose proof (step_cases pid d o d1 e1 Hp Fo E1) as C. destruct o as [start f a|sock conn recv w].
    + destruct C as (_ & _ & [[G ->]|[_ ->]]); cbn [app] in Et.
      * destruct tr1 as [|x1 [|x2 tr1]]; [discriminate Et| |].
        -- injection Et as X1 X2 X3. subst. split; [exists start, a; split; [now left|exact G]|]. exists [], (d_ctrl d), (d_conn d). reflexivity.
        -- injection Et as X1 X2 X3. apply (Rest tr1 X3). rewrite <- X1, <- X2. reflexivity.
      * destruct tr1 as [|x1 [|x2 tr1]]; [discriminate Et|discriminate Et|].
        injection Et as X1 X2 X3. apply (Rest tr1 X3). rewrite <- X1, <- X2. reflexivity.
    + destruct C as (c & f & t & _ & _ & _ & _ & _ & _ & ->). cbn [app] in Et.
      destruct tr1 as [|x1 [|x2 tr1]]; [discriminate Et|discriminate Et|].
      injection Et as X1 X2 X3. apply (Rest tr1 X3). rewrite <- X1, <- X2. reflexivity.
Qed.

(** Where everything is sent *)
Definition over_only (c : N) (e : aact) : Prop :=
  match e with SendFd o k _ | SendPid o k _ => o = c /\ k = true | _ => True end.

Lemma later_over pid c : pid < 2 ^ 32 -> forall l d' tr, Forall proper_op l ->
  Forall (fun o => exists fd a, o = OpBind false fd a) l -> arun true pid (mk_dev c true) l = Ok (d', tr) -> Forall (over_only c) tr.
Proof.
  intros Hp. induction l as [|o l IH]; intros d' tr F B E; [injection E as _ <-; constructor|].
  destruct (run_cons _ _ _ _ _ _ E) as (d1 & e1 & e2 & E1 & E2 & ->). inversion_clear F as [|? ? Fo Fl]. inversion_clear B as [|? ? Bo Bl].
  destruct Bo as (fd & a & ->). pose proof (step_cases _ _ _ _ _ Hp Fo E1) as (-> & _ & C).
  apply Forall_app. split; [|exact (IH _ _ Fl Bl E2)].
  destruct C as [[_ ->]|[_ ->]]; repeat constructor.
Qed.

Lemma super_over pid iface later d' tr : pid < 2 ^ 32 -> in_order [] iface later -> Forall proper_op (iface :: later) ->
  arun true pid first_dev (iface :: later) = Ok (d', tr) ->
  exists c conn recv w, iface = OpIface (Some c) conn recv w /\
    forall e, In e tr -> match e with SendFd o k _ | SendPid o k _ => o = c /\ k = true | _ => True end.
Proof.
  intros Hp (_ & (s & cn & r & w & ->) & B) F E. inversion_clear F as [|? ? Fo Fl].
  destruct (run_cons _ _ _ _ _ _ E) as (d1 & e1 & e2 & E1 & E2 & ->).
  pose proof (step_cases _ _ _ _ _ Hp Fo E1) as (c & fd & t & -> & _ & _ & _ & _ & -> & ->).
  exists c, cn, r, w. split; [reflexivity|]. intros e He.
  assert (A : Forall (over_only c) ([SendPid c true t; Tun fd] ++ e2)).
  { apply Forall_app. split; [repeat constructor|]. exact (later_over pid c Hp later d' e2 Fl B E2). }
  rewrite Forall_forall in A. exact (A e He).
Qed.

Lemma super_early pid fd a rest iface later d' tr : pid < 2 ^ 32 -> in_order (OpBind true fd a :: rest) iface later ->
  Forall proper_op (OpBind true fd a :: rest ++ iface :: later) ->
  arun true pid first_dev (OpBind true fd a :: rest ++ iface :: later) = Ok (d', tr) -> In (SendFd 0 false fd) tr.
Proof.
  intros Hp _ F E. inversion_clear F as [|? ? Fo Fl].
  destruct (run_cons _ _ _ _ _ _ E) as (d1 & e1 & e2 & E1 & E2 & ->).
  pose proof (step_cases _ _ _ _ _ Hp Fo E1) as (_ & _ & [[_ ->]|[_ ->]]); now left.
Qed.

Lemma super_off pid d fd start a : astep false pid d (OpBind start fd a) = Ok (d, [Uses fd]).
Proof. reflexivity. Qed.
