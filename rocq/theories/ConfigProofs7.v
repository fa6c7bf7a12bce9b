(** Lists of statements, groups and files, the other direction: what is written is read. *)
From Verif Require Import Base BufferModel MethodModel AddrModel LexModel LexSpec HexSpec ConfigModel ConfigSpec ConfigProofs ConfigProofs2 ConfigProofs3
  ConfigProofs4 ConfigProofs5 ConfigProofs6.
From Verif Require NameModel.
From Coq Require Import String.
Local Open Scope N_scope.

Definition stmt_m (E : env) (f : nat) (full : bool) (rd : reader) (cwd : bytes) (t : tok) : M unit :=
  match t with
  | TKey Kpeer =>
      let! t <- next_tok;
      match t with
      | TStr name =>
          let! g <- get_group;
          set_peer (Some (new_peer (Some name) g)) ;;
          chr 123 ;; peer_conf_block E f rd cwd ;; chr 125 ;; peer_after
      | TKey Kgroup =>
          let! name <- str;
          push_group name ;;
          chr 123 ;; block E f false rd cwd ;; chr 125 ;; pop_group
      | TKey Klimit =>
          let! n <- uint; let! g <- get_group;
          (if 2 ^ 31 - 1 <? n then fail else modify (update_group g (set_gc_limit (Some n)))) ;; semicolon
      | _ => fail
      end
  | TKey Kmethod =>
      let! s <- str; let! g <- get_group;
      modify (update_group g (fun x => set_gc_methods (NameModel.config_method (gc_methods x) s) x)) ;; semicolon
  | TKey Kon => on_stmt E full cwd
  | TKey Kinclude => include_stmt E rd cwd
  | _ => if full then global_stmt E cwd t else fail
  end.
Lemma block_step E f full rd cwd : block E (S f) full rd cwd =
  (let! t <- peek; if at_end t then ret tt else next_tok ;; stmt_m E f full rd cwd t ;; block E f full rd cwd).
Proof. reflexivity. Qed.

(** What [block] does with a list of statements *)
Definition reads (E : env) (rd : reader) (cwd : bytes) (body : list stmt) (g : nat) (c c' : conf) : Prop :=
  forall fuel full r p, full = Nat.eqb g 0 -> ended r -> (List.length (text body) < fuel)%nat ->
  exists p', yields (block E fuel full rd cwd) (Pst (map tok_of (text body) ++ r) c g p) tt (Pst r c' g p').
(** What it does with one statement *)
Definition reads_one (E : env) (rd : reader) (cwd : bytes) (st : stmt) (g : nat) (c c' : conf) : Prop :=
  exists k ts, map tok_of (stmt_text st) = TKey k :: ts /\
  forall f full rest p, full = Nat.eqb g 0 -> (List.length ts <= f)%nat ->
  exists p', yields (stmt_m E f full rd cwd (TKey k)) (Pst (ts ++ rest) c g p) tt (Pst rest c' g p').

Lemma reads_nil E rd cwd g c : reads E rd cwd [] g c c.
Proof.
  intros fuel full r p FU N L. destruct fuel as [|f]; [cbn in L; lia|]. exists p. cbn [text flat_map map List.app]. rewrite block_step.
  destruct r as [|t r]; [destruct N|]. cbn [ended] in N. eapply bnd_intro; [apply peek_ok; intros e ->; discriminate N|]. cbv beta. rewrite N. apply ret_ok.
Qed.
Lemma reads_cons E rd cwd st body g c c1 c' : reads_one E rd cwd st g c c1 -> reads E rd cwd body g c1 c' -> reads E rd cwd (st :: body) g c c'.
Proof.
  intros (k & ts & T & S1) B fuel full r p FU N L. destruct fuel as [|f]; [lia|].
  unfold text in *. cbn [flat_map] in *. rewrite map_app, <- app_assoc, T. cbn [List.app].
  assert (T' : List.length (stmt_text st) = S (List.length ts)) by (rewrite <- (map_length tok_of), T; reflexivity). rewrite app_length in L.
  destruct (S1 f full (map tok_of (flat_map stmt_text body) ++ r) p FU ltac:(lia)) as (p1 & Y).
  destruct (B f full r p1 FU N ltac:(unfold text; lia)) as (p2 & Y2). exists p2. rewrite block_step.
  eapply bnd_intro; [apply peek_ok; intros; discriminate|]. cbv beta. change (at_end (TKey k)) with false. cbv iota.
  eapply bnd_intro; [apply next_ok; intros; discriminate|]. cbv beta. eapply bnd_intro; [exact Y|]. exact Y2.
Qed.

Lemma setting_one E rd cwd s c : setting_fine E s -> reads_one E rd cwd (SSet s) 0 c (app_set E cwd s c).
Proof.
  intros F. destruct (on_only s) eqn:O.
  - destruct s; try discriminate O.
    + exists Kon, [TKey Kpre_up; TStr s; TChar 59]. split; [reflexivity|]. intros f full rest p -> _. exists p. cbn [stmt_m List.app]. unfold on_stmt. go.
    + exists Kon, [TKey Kpost_down; TStr s; TChar 59]. split; [reflexivity|]. intros f full rest p -> _. exists p. cbn [stmt_m List.app]. unfold on_stmt. go.
  - assert (NE : setting_text s <> []) by (unfold setting_text; destruct s; try discriminate; [destruct ident|destruct b as [b|]]; discriminate).
    assert (FK : exists k, tok_of (hd semi (setting_text s)) = TKey k /\ k <> Kpeer /\ k <> Kmethod /\ k <> Kon /\ k <> Kinclude).
    { unfold setting_text. destruct s; try discriminate O; [..|]; try destruct ident; try destruct b; cbn [List.app hd]; autorewrite with tk;
        eexists; (split; [reflexivity|repeat split; discriminate]). }
    destruct FK as (k & K1 & N1 & N2 & N3 & N4). exists k, (map tok_of (tl (setting_text s))). split.
    { rewrite <- K1. pose proof (map_hd_tl (setting_text s) [] NE) as X. rewrite !app_nil_r in X. exact X. }
    intros f full rest p -> _. exists p.
    replace (stmt_m E f (Nat.eqb 0 0) rd cwd (TKey k)) with (global_stmt E cwd (TKey k)) by (destruct k; reflexivity || congruence).
    rewrite <- K1. apply global_ok; assumption.
Qed.
Lemma on_one E rd cwd h sy s g c : reads_one E rd cwd (SOn h sy s) g c (update_group g (set_hook h (Some (Command s cwd (is_sync sy)))) c).
Proof.
  assert (GC : forall rest p, yields (group_command cwd (set_hook h)) (Pst ((map tok_of (sync_text sy) ++ [TStr s; TChar 59]) ++ rest) c g p) tt
    (Pst rest (update_group g (set_hook h (Some (Command s cwd (is_sync sy)))) c) g p)).
  { intros rest p. rewrite <- app_assoc. cbn [List.app]. unfold group_command. eapply bnd_intro; [apply sync_ok; reflexivity|]. cbv beta. go. }
  assert (T : exists k, tok_of (hook_text h) = TKey k /\ forall full r p, yields (group_command cwd (set_hook h)) (Pst r c g p) tt =
                        yields (on_stmt E full cwd) (Pst (TKey k :: r) c g p) tt).
  { destruct h; unfold hook_text; autorewrite with tk; eexists; (split; [reflexivity|]); intros; reflexivity. }
  destruct T as (k & TK & EQ). exists Kon, (TKey k :: map tok_of (sync_text sy) ++ [TStr s; TChar 59]). split.
  - cbn [stmt_text]. rewrite !map_app. cbn [map List.app]. rewrite TK. reflexivity.
  - intros f full rest p _ _. exists p. cbn [stmt_m List.app]. rewrite <- (EQ full). apply GC.
Qed.
Lemma verify_one E rd cwd sy s g c : b_dynamic (e_build E) = true ->
  reads_one E rd cwd (SVerify sy s) g c (set_c_verify_group (Some g) (set_c_verify (Some (Command s cwd (is_sync sy))) c)).
Proof.
  intros D. exists Kon, (TKey Kverify :: map tok_of (sync_text sy) ++ [TStr s; TChar 59]). split.
  - cbn [stmt_text]. rewrite !map_app. cbn [map List.app]. autorewrite with tk. reflexivity.
  - intros f full rest p _ _. exists p. cbn [stmt_m List.app]. rewrite <- app_assoc. cbn [List.app]. unfold on_stmt. go.
    eapply bnd_intro; [apply sync_ok; reflexivity|]. cbv beta. rewrite D. go.
Qed.
Lemma limit_one E rd cwd k g c : k <= 2 ^ 31 - 1 -> reads_one E rd cwd (SLimit k) g c (update_group g (set_gc_limit (Some k)) c).
Proof.
  intros L. exists Kpeer, [TKey Klimit; TUint k; TChar 59]. split; [reflexivity|]. intros f full rest p _ _. exists p. cbn [stmt_m List.app]. go.
  destruct (N.ltb_spec (2 ^ 31 - 1) k); [lia|]. go.
Qed.
Lemma method_one E rd cwd s g c :
  reads_one E rd cwd (SMethod s) g c (update_group g (fun x => set_gc_methods (NameModel.config_method (gc_methods x) s) x) c).
Proof.
  exists Kmethod, [TStr s; TChar 59]. split; [reflexivity|]. intros f full rest p _ _. exists p. cbn [stmt_m List.app]. go.
Qed.
Lemma peer_add_ok q ts c g p c' : app_peer q c = Some c' -> yields (peer_add q) (Pst ts c g p) tt (Pst ts c' g p).
Proof. intros A. unfold yields. rewrite peer_add_eq, A. reflexivity. Qed.
Lemma peer_one E d rd cwd name inner ps g c c' : peer_reader E d rd -> (g < List.length (c_groups c))%nat -> peer_means E d cwd inner ps ->
  app_peer (app_psets E ps (new_peer (Some name) g)) c = Some c' -> reads_one E rd cwd (SPeer name inner) g c c'.
Proof.
  intros PR G M A. exists Kpeer, (TStr name :: TChar 123 :: map tok_of (peer_text inner) ++ [TChar 125]). split.
  - cbn [stmt_text]. rewrite !map_app. cbn [map List.app]. autorewrite with tk. reflexivity.
  - intros f full rest p _ L. eexists. cbn [stmt_m List.app]. rewrite <- app_assoc. cbn [List.app]. go.
    eapply bnd_intro; [apply (peer_block_ok E d); try eassumption; [reflexivity|reflexivity|]|].
    + cbn [List.length] in L. rewrite app_length, map_length in L. cbn in L. lia.
    + cbv beta. go. unfold peer_after. go. apply peer_add_ok. exact A.
Qed.
Lemma group_one E rd cwd name inner g c c' : wfc c -> (g < List.length (c_groups c))%nat ->
  (let c0 := set_c_groups (c_groups c ++ [new_group name (Some g)]) c in
   reads E rd cwd inner (List.length (c_groups c)) c0 c' /\ parent_at c' (List.length (c_groups c)) = Some (Some g)) ->
  reads_one E rd cwd (SGroup name inner) g c c'.
Proof.
  intros W G [R PA]. exists Kpeer, (TKey Kgroup :: TStr name :: TChar 123 :: map tok_of (text inner) ++ [TChar 125]). split.
  - cbn [stmt_text]. rewrite !map_app. cbn [map List.app]. autorewrite with tk. reflexivity.
  - intros f full rest p _ L. pose proof (wfc_pos c W) as POS. cbn [List.length] in L. rewrite app_length, map_length in L. cbn [List.length] in L.
    destruct (R f false (TChar 125 :: rest) p) as (p' & Y); [symmetry; apply Nat.eqb_neq; lia|reflexivity|lia|].
    exists p'. cbn [stmt_m List.app]. rewrite <- app_assoc. cbn [List.app]. go.
    eapply bnd_intro; [exact Y|]. cbv beta. go.
    unfold pop_group, yields. cbn [ps_conf ps_group ps_toks ps_peer]. unfold parent_at in PA.
    destruct (nth_error (c_groups c') _) as [x|]; [|discriminate]. cbn in PA. injection PA as ->. reflexivity.
Qed.
Lemma include_peer_one E d rd cwd s name dir inner ps g c c' : peer_reader E (S d) rd -> (g < List.length (c_groups c))%nat ->
  file_is E cwd s dir (peer_text inner ++ [LEof]) -> peer_means E d dir inner ps ->
  app_peer (app_psets E ps (new_peer name g)) c = Some c' -> reads_one E rd cwd (SIncludePeer s name) g c c'.
Proof.
  intros PR G FI M A. exists Kinclude, (TKey Kpeer :: TStr s :: map tok_of (match name with None => [] | Some n => [K "as"; LStr n] end) ++ [TChar 59]).
  split; [destruct name; reflexivity|]. intros f full rest p _ _. exists p. cbn [stmt_m List.app]. rewrite <- app_assoc. cbn [List.app].
  unfold include_stmt. go. eapply bnd_intro; [apply maybe_as_ok; reflexivity|]. cbv beta. go.
  eapply bnd_intro; [apply call_ok; apply (PR cwd s g (new_peer name 0) c c (Some (app_psets E ps (new_peer name g))) G)|].
  { exists d, dir, inner, ps. repeat split; assumption. }
  cbv beta iota. eapply bnd_intro; [apply peer_add_ok; exact A|]. go.
Qed.
Lemma include_peers_one E rd cwd dir g c :
  reads_one E rd cwd (SIncludePeers dir) g c (match e_cd E cwd dir with Some d => update_group g (fun x => set_gc_dirs (d :: gc_dirs x) x) c | None => c end).
Proof.
  exists Kinclude, [TKey Kpeers; TKey Kfrom; TStr dir; TChar 59]. split; [reflexivity|]. intros f full rest p _ _. exists p. cbn [stmt_m List.app].
  unfold include_stmt. go. unfold add_dir. destruct (e_cd E cwd dir); go.
Qed.
Lemma include_one E d rd cwd s dir inner es g c c' : group_reader E (S d) rd -> wfc c -> (g < List.length (c_groups c))%nat ->
  file_is E cwd s dir (text inner ++ [LEof]) -> means E d dir g (List.length (c_groups c)) inner es -> app_all E es c = Some c' ->
  reads_one E rd cwd (SInclude s) g c c'.
Proof.
  intros GR W G FI M A. exists Kinclude, [TStr s; TChar 59]. split; [reflexivity|]. intros f full rest p _ _. exists p. cbn [stmt_m List.app].
  unfold include_stmt. go. eapply bnd_intro; [apply call_ok; apply (GR cwd s g c c' None W G)|].
  { exists d, dir, inner, es. repeat split; assumption. }
  go.
Qed.

Lemma after E es c c1 g : app_all E es c = Some c1 -> wfc c -> (g < List.length (c_groups c))%nat ->
  wfc c1 /\ (g < List.length (c_groups c1))%nat /\ (List.length (c_groups c) + groups es = List.length (c_groups c1))%nat.
Proof.
  intros A W G. destruct (app_all_groups E es c c1 A) as [L _]. split; [exact (app_all_wfc E es c c1 A W)|]. split; [lia|symmetry; exact L].
Qed.
Lemma block_ok E d cwd g n body es : means E d cwd g n body es -> forall rd c c', peer_reader E d rd -> group_reader E d rd ->
  wfc c -> (g < List.length (c_groups c))%nat -> n = List.length (c_groups c) -> app_all E es c = Some c' -> reads E rd cwd body g c c'.
Proof.
  induction 1 as [ | d cwd n s body es F M IH | d cwd g n name inner ps body es PM M IH | d cwd g n name inner ei body es MI IHI M IH
    | d cwd g n k body es L M IH | d cwd g n s body es M IH | d cwd g n h sy s body es M IH | d cwd g n sy s body es D M IH
    | d cwd g n f name dir inner ps body es FI PM M IH | d cwd g n dir abs body es CD M IH | d cwd g n dir body es CD M IH
    | d cwd g n f dir inner ei body es FI MI _ M IH ];
    intros rd c c' PR GR W G EN A.
  1: cbn in A; injection A as <-; apply reads_nil.
  3: { change (EGroup g name :: ei ++ es) with ([EGroup g name] ++ ei ++ es) in A. rewrite app_all_app in A.
       cbn [app_all app] in A. set (c0 := set_c_groups (c_groups c ++ [new_group name (Some g)]) c) in *.
       rewrite app_all_app in A. destruct (app_all E ei c0) as [c1|] eqn:A1; [|discriminate].
       assert (A0 : app_all E [EGroup g name] c = Some c0) by reflexivity.
       destruct (after E _ _ _ g A0 W G) as (W0 & G0 & L0). unfold groups in L0. cbn [heads flat_map List.app List.length] in L0. destruct (after E _ _ _ g A1 W0 G0) as (W1 & G1 & L1).
       assert (GN : (List.length (c_groups c) < List.length (c_groups c0))%nat) by lia.
       apply (reads_cons E rd cwd _ _ g c c1).
       - apply group_one; [exact W|exact G|]. cbn zeta. fold c0. split.
         + rewrite <- EN in *. apply (IHI rd c0 c1 PR GR W0); [lia|cbn; rewrite app_length; cbn; lia|exact A1].
         + destruct (app_all_groups E ei c0 c1 A1) as [_ P1]. rewrite P1 by exact GN. unfold parent_at. cbn.
           rewrite nth_error_app2, Nat.sub_diag by lia. reflexivity.
       - apply (IH rd c1 c' PR GR W1 G1); [|exact A]. rewrite <- L1, EN. unfold c0. cbn. rewrite app_length. cbn. lia. }
  10: { rewrite app_all_app in A. destruct (app_all E ei c) as [c1|] eqn:A1; [|discriminate].
       destruct (after E _ _ _ g A1 W G) as (W1 & G1 & L1). subst n.
       apply (reads_cons E rd cwd _ _ g c c1); [exact (include_one E d rd cwd f dir inner ei g c c1 GR W G FI MI A1)|].
       apply (IH rd c1 c' PR GR W1 G1 L1 A). }
  9: { apply (reads_cons E rd cwd _ _ g c c); [|exact (IH rd c c' PR GR W G EN A)].
       pose proof (include_peers_one E rd cwd dir g c) as X. rewrite CD in X. exact X. }
  all: cbn [app_all] in A; match type of A with context [app ?E ?e ?c] =>
         let A1 := fresh "A1" in destruct (app E e c) as [c1|] eqn:A1; [|discriminate];
         assert (A0 : app_all E [e] c = Some c1) by (cbn [app_all]; rewrite A1; reflexivity) end;
       match goal with |- reads _ _ _ _ ?g _ _ => destruct (after _ _ _ _ g A0 W G) as (W1 & G1 & L1) end;
       cbn in L1; rewrite Nat.add_0_r, <- EN in L1;
       match goal with |- reads _ _ _ _ _ _ _ => eapply reads_cons; [|exact (IH _ _ _ PR GR W1 G1 L1 A)] end.
  - injection A1 as <-. apply setting_one. exact F.
  - exact (peer_one E d rd cwd name inner ps g c c1 PR G PM A1).
  - injection A1 as <-. apply limit_one. exact L.
  - injection A1 as <-. apply method_one.
  - injection A1 as <-. apply on_one.
  - injection A1 as <-. apply verify_one. exact D.
  - exact (include_peer_one E d rd cwd f name dir inner ps g c c1 PR G FI PM A1).
  - injection A1 as <-. pose proof (include_peers_one E rd cwd dir g c) as X. rewrite CD in X. exact X.
Qed.
