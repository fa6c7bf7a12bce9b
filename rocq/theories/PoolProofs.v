(** Proofs about the buffer pool *)
From Coq Require Import Permutation Lia ZifyNat ZifyN ZifyBool.
From Verif Require Import Base BufferModel PoolModel PoolSpec.

Definition wp {A} (r : res A) (Q : A -> Prop) : Prop :=
  match r with Ok a => Q a | Fatal => True | _ => False end.

Lemma wp_bind : forall A B (r : res A) (f : A -> res B) (Q : B -> Prop),
  wp r (fun a => wp (f a) Q) -> wp (bind r f) Q.
Proof. intros A B [a | | |] f Q H; cbn in *; auto. Qed.

Lemma wp_mono : forall A (r : res A) (Q R : A -> Prop), wp r Q -> (forall a, Q a -> R a) -> wp r R.
Proof. intros A [a | | |] Q R H HI; cbn in *; auto. Qed.

(** The free buffers [l] in the order of the list *)
Inductive chain (cells : list cell) : option nat -> list nat -> Prop :=
| ch_nil : chain cells None []
| ch_cons : forall b q l, nth_error cells b = Some (mk_cell SIZE_MAX (Link q)) -> chain cells q l -> chain cells (Some b) (b :: l).

(** The buffers in use are those of [U] *)
Definition holds (n : nat) (s : pool) (U : list nat) : Prop :=
  length (p_cells s) = n /\
  exists L, chain (p_cells s) (p_head s) L /\ Permutation (L ++ U) (seq 0 n) /\
    forall b, In b U -> exists len h, nth_error (p_cells s) b = Some (mk_cell len (Data h)).

Lemma set_cell_length : forall b c l, b < length l -> length (set_cell b c l) = length l.
Proof.
  intros b c l H. unfold set_cell. rewrite app_length. cbn [length]. rewrite firstn_length, skipn_length. lia.
Qed.
Lemma set_cell_same : forall b c l, b < length l -> nth_error (set_cell b c l) b = Some c.
Proof.
  intros b c l H. unfold set_cell. rewrite nth_error_app2; rewrite firstn_length; [|lia].
  replace (b - Nat.min b (length l)) with 0 by lia. reflexivity.
Qed.
Lemma nth_error_firstn : forall (l : list cell) i n, i < n -> nth_error (firstn n l) i = nth_error l i.
Proof.
  induction l as [|x l IH]; intros i n H; [rewrite firstn_nil; destruct i; reflexivity|].
  destruct n as [|n]; [lia|]. destruct i as [|i]; [reflexivity|]. cbn. apply IH. lia.
Qed.
Lemma nth_error_skipn : forall (l : list cell) i n, nth_error (skipn n l) i = nth_error l (n + i).
Proof.
  induction l as [|x l IH]; intros i n; [rewrite skipn_nil; destruct i, n; reflexivity|].
  destruct n as [|n]; [reflexivity|]. cbn. apply IH.
Qed.
Lemma set_cell_other : forall b i c l, b < length l -> i <> b -> nth_error (set_cell b c l) i = nth_error l i.
Proof.
  intros b i c l H Hne. unfold set_cell.
  destruct (Nat.lt_ge_cases i b) as [Hi | Hi].
  - rewrite nth_error_app1 by (rewrite firstn_length; lia). apply nth_error_firstn. lia.
  - rewrite nth_error_app2 by (rewrite firstn_length; lia). rewrite firstn_length.
    replace (i - Nat.min b (length l)) with (S (i - S b)) by lia. cbn [nth_error].
    rewrite nth_error_skipn. f_equal. lia.
Qed.

Lemma chain_set : forall cells p l b c, chain cells p l -> ~ In b l -> b < length cells -> chain (set_cell b c cells) p l.
Proof.
  intros cells p l b c H. induction H as [|x q l Hx Hc IH]; intros Hn Hb; [constructor|].
  cbn in Hn. econstructor.
  - rewrite set_cell_other by (auto; intros ->; apply Hn; auto). exact Hx.
  - apply IH; auto.
Qed.

Lemma seq_in : forall n b, In b (seq 0 n) <-> b < n.
Proof. intros. rewrite in_seq. lia. Qed.

Section Pool.
Variable n : nat.
Notation H := (holds n).

Lemma holds_len : forall s U, H s U -> length U <= n.
Proof.
  intros s U (HL & L & _ & HP & _). apply Permutation_length in HP. rewrite app_length, seq_length in HP. lia.
Qed.

Lemma holds_choices : forall s U c, H s U -> H (mk_pool (p_cells s) (p_head s) c) U.
Proof. intros s U c HH. exact HH. Qed.

Lemma wp_buffer_alloc : forall max len hr s U,
  H s U -> length U < n ->
  wp (buffer_alloc max len hr s) (fun r => H (snd r) (fst r :: U)).
Proof.
  intros max len hr s U (HL & L & HC & HP & HU) Hlt. unfold buffer_alloc.
  destruct (_ <? _)%N; [exact Logic.I|].
  assert (HL2 : length L + length U = n) by (apply Permutation_length in HP; rewrite app_length, seq_length in HP; exact HP).
  destruct HC as [|b q l Hb HC]; [cbn in HL2; lia|].
  rewrite Hb. cbn [c_len c_data]. rewrite N.eqb_refl. cbn [negb wp fst snd].
  assert (Hbn : b < length (p_cells s)) by (apply nth_error_Some; rewrite Hb; discriminate).
  assert (ND : NoDup ((b :: l) ++ U)) by (apply (Permutation_NoDup (Permutation_sym HP)), seq_NoDup).
  cbn in ND. apply NoDup_cons_iff in ND. destruct ND as (Hnot & ND).
  split; [cbn [p_cells]; rewrite set_cell_length; auto|].
  exists l. cbn [p_cells p_head]. split; [|split].
  - apply chain_set; auto. intros Hin. apply Hnot. apply in_or_app. auto.
  - rewrite <- HP. cbn. symmetry. apply Permutation_middle.
  - intros x [<- | Hx].
    + rewrite set_cell_same by auto. eauto.
    + rewrite set_cell_other; auto. intros ->. apply Hnot. apply in_or_app. auto.
Qed.

Lemma wp_free : forall s b U, H s (b :: U) -> wp (buffer_free b s) (fun s' => H s' U).
Proof.
  intros s b U (HL & L & HC & HP & HU). unfold buffer_free.
  destruct (HU b (or_introl eq_refl)) as (len & h & Hb). rewrite Hb. cbn [wp].
  assert (Hbn : b < length (p_cells s)) by (apply nth_error_Some; rewrite Hb; discriminate).
  assert (ND : NoDup (L ++ b :: U)) by (apply (Permutation_NoDup (Permutation_sym HP)), seq_NoDup).
  assert (Hnot : ~ In b (L ++ U)) by (apply NoDup_remove_2; exact ND).
  split; [cbn [p_cells]; rewrite set_cell_length; auto|].
  exists (b :: L). cbn [p_cells p_head]. split; [|split].
  - econstructor; [apply set_cell_same; auto|]. apply chain_set; auto. intros Hin. apply Hnot. apply in_or_app. auto.
  - rewrite <- HP. cbn. apply Permutation_middle.
  - intros x Hx. rewrite set_cell_other; auto. { apply HU. right. exact Hx. }
    intros ->. apply Hnot. apply in_or_app. auto.
Qed.

Lemma wp_use : forall s b U (Q : unit -> Prop), H s U -> In b U -> Q tt -> wp (use b s) Q.
Proof.
  intros s b U Q (HL & L & HC & HP & HU) Hin HQ. unfold use.
  destruct (HU b Hin) as (len & h & Hb). rewrite Hb. exact HQ.
Qed.

Lemma choose_eq : forall s c s' U, choose s = (c, s') -> H s U -> H s' U.
Proof. intros s c s' U E HH. injection E as _ <-. exact HH. Qed.
Lemma decide_eq : forall s c s' U, decide s = (c, s') -> H s U -> H s' U.
Proof. intros s c s' U E HH. unfold decide in E. destruct (choose s) as (c0, s0) eqn:E0. injection E as _ <-. eapply choose_eq; eauto. Qed.
Lemma kind_eq : forall s c s' U, choose_kind s = (c, s') -> H s U -> H s' U.
Proof. intros s c s' U E HH. unfold choose_kind in E. destruct (choose s) as (c0, s0) eqn:E0. injection E as _ <-. eapply choose_eq; eauto. Qed.

Lemma holds_perm : forall s U V, H s U -> Permutation U V -> H s V.
Proof.
  intros s U V (HL & L & HC & HP & HU) Hp. split; [exact HL|]. exists L. split; [exact HC|]. split.
  - rewrite <- HP. apply Permutation_app_head. symmetry. exact Hp.
  - intros b Hb. apply HU. apply (Permutation_in b (Permutation_sym Hp) Hb).
Qed.
End Pool.

Local Notation H := (holds 3).

Ltac pick :=
  match goal with
  | HH : H ?s _ |- context [let (_, _) := choose ?s in _] =>
      let E := fresh "E" in destruct (choose s) as (?, ?) eqn:E; apply (choose_eq 3 _ _ _ _ E) in HH; clear E
  | HH : H ?s _ |- context [let (_, _) := decide ?s in _] =>
      let E := fresh "E" in destruct (decide s) as ([|], ?) eqn:E; apply (decide_eq 3 _ _ _ _ E) in HH; clear E; cbn [negb]
  | HH : H ?s _ |- context [let (_, _) := choose_kind ?s in _] =>
      let E := fresh "E" in destruct (choose_kind s) as (?, ?) eqn:E; apply (kind_eq 3 _ _ _ _ E) in HH; clear E
  end.

Lemma wp_alloc : forall max s U, H s U -> length U < 3 -> wp (alloc max s) (fun r => H (snd r) (fst r :: U)).
Proof. intros max s U HH Hl. unfold alloc. pick. pick. apply wp_buffer_alloc; auto. Qed.

Ltac member := cbn; auto.
Ltac usebuf := apply wp_bind; eapply wp_use; [eassumption | member |].
Ltac call L := apply wp_bind; (eapply wp_mono; [apply L; [eassumption | cbn in *; lia] |]);
  let r := fresh "r" in let HN := fresh "HH" in intros r HN; cbn beta in HN; try (destruct r as (?, ?); cbn [fst snd] in HN).
Ltac freebuf := apply wp_bind; (eapply wp_mono; [apply (wp_free 3); eassumption |]); let t := fresh "s" in let HN := fresh "HH" in intros t HN; cbn beta in HN.
Ltac lastfree := apply (wp_free 3); eassumption.
Ltac swap2 HH := apply (fun h => holds_perm 3 _ _ _ h (perm_swap _ _ _)) in HH.

Definition crypt_post (b : nat) (U : list nat) (r : option nat * pool) : Prop :=
  match fst r with Some out => H (snd r) (out :: U) | None => H (snd r) (b :: U) end.

Lemma wp_encrypt : forall max k s b U, H s (b :: U) -> length U <= 1 -> wp (encrypt max k b s) (crypt_post b U).
Proof.
  intros max k s b U HH HU. unfold encrypt.
  assert (G : wp (do _ <- use b s; do (out, s) <- alloc max s; do _ <- use b s; do _ <- use out s;
      let (ok, s) := decide s in
      if ok then do s <- buffer_free b s; do _ <- use out s; Ok (Some out, s)
      else do s <- buffer_free out s; Ok (None, s)) (crypt_post b U)).
  { usebuf. call wp_alloc. usebuf. usebuf. pick.
    - swap2 HH0. freebuf. usebuf. exact HH1.
    - freebuf. exact HH1. }
  destruct k; try exact G.
  - usebuf. exact HH.
  - usebuf. pick.
    + freebuf. call wp_alloc. usebuf. exact HH1.
    + exact HH.
Qed.

Lemma wp_decrypt : forall max k s b U, H s (b :: U) -> length U <= 1 -> wp (decrypt max k b s) (crypt_post b U).
Proof.
  intros max k s b U HH HU. unfold decrypt. usebuf.
  destruct k; try (pick; [|exact HH]; call wp_alloc; usebuf; usebuf; pick).
  - exact HH.
  - pick; exact HH.
  - swap2 HH0. freebuf. usebuf. exact HH1.
  - freebuf. exact HH1.
  - swap2 HH0. freebuf. usebuf. exact HH1.
  - freebuf. usebuf. exact HH1.
  - usebuf. swap2 HH0. freebuf. exact HH1.
  - freebuf. exact HH1.
Qed.

Lemma wp_session_send : forall max s b U, H s (b :: U) -> length U <= 1 -> wp (session_send max b s) (fun s' => H s' U).
Proof.
  intros max s b U HH HU. unfold session_send. usebuf. pick. call wp_encrypt.
  unfold crypt_post in HH0. destruct o as [out|]; cbn [fst snd] in HH0.
  - usebuf. lastfree.
  - lastfree.
Qed.

Lemma wp_protocol_send : forall max s b U, H s (b :: U) -> length U <= 1 -> wp (protocol_send max b s) (fun s' => H s' U).
Proof.
  intros max s b U HH HU. unfold protocol_send. pick.
  - apply wp_session_send; auto.
  - lastfree.
Qed.

Lemma wp_send_empty : forall max s U, H s U -> length U <= 1 -> wp (send_empty max s) (fun s' => H s' U).
Proof.
  intros max s U HH HU. unfold send_empty. call wp_alloc. apply wp_session_send; auto.
Qed.

Lemma wp_buffer_dup : forall max s b U, H s (b :: U) -> length U <= 1 ->
  wp (buffer_dup max b s) (fun r => H (snd r) (fst r :: b :: U)).
Proof.
  intros max s b U HH HU. unfold buffer_dup. usebuf. call wp_alloc. usebuf. usebuf. exact HH0.
Qed.

Lemma wp_buffer_align : forall max s b U, H s (b :: U) -> length U <= 1 ->
  wp (buffer_align max b s) (fun r => H (snd r) (fst r :: U)).
Proof.
  intros max s b U HH HU. unfold buffer_align. usebuf. pick; [exact HH|].
  call wp_buffer_dup. swap2 HH0. freebuf. exact HH1.
Qed.

Lemma wp_send_all : forall max m s b, H s [b] -> wp (send_all max m b s) (fun s' => H s' []).
Proof.
  intros max. induction m as [|m IH]; intros s b HH; cbn [send_all]; [lastfree|].
  pick; [apply IH; exact HH|]. destruct m as [|m].
  - apply wp_protocol_send; auto.
  - call wp_buffer_dup. call wp_protocol_send. apply IH. exact HH1.
Qed.

Lemma wp_send_data : forall max s b, H s [b] -> wp (send_data max b s) (fun s' => H s' []).
Proof.
  intros max s b HH. unfold send_data. pick; [apply wp_protocol_send; auto|].
  apply wp_bind. unfold send_data_tap_single. pick.
  2:{ cbn [wp]. pick. apply wp_send_all. exact HH. }
  usebuf. pick; [freebuf; exact HH0|]. pick.
  2:{ cbn [wp]. pick. apply wp_send_all. exact HH. }
  pick; [freebuf; exact HH0|]. call wp_protocol_send. exact HH0.
Qed.

Lemma wp_handle_receive : forall max s b, H s [b] -> wp (handle_receive max b s) (fun s' => H s' []).
Proof.
  intros max s b HH. unfold handle_receive. pick; [|lastfree]. usebuf. pick; [lastfree|]. usebuf. pick; [|lastfree].
  call wp_buffer_align. apply wp_send_data. exact HH0.
Qed.

Lemma wp_handle_recv : forall max s b, H s [b] -> wp (handle_recv max b s) (fun s' => H s' []).
Proof.
  intros max s b HH. unfold handle_recv. pick; [|lastfree]. usebuf.
  assert (last : forall r s, crypt_post b [] (r, s) ->
    wp (match r with
        | None => buffer_free b s
        | Some r => do _ <- use r s; let (empty, s) := decide s in
                    if empty then buffer_free r s else handle_receive max r s
        end) (fun s' => H s' [])).
  { intros [r|] s1 HC; unfold crypt_post in HC; cbn in HC; [|lastfree].
    usebuf. pick; [lastfree|]. apply wp_handle_receive. exact HC. }
  assert (next : forall s, H s [b] -> wp
    (do (recv, s) <-
       (let (k, s) := choose_kind s in
        do (recv, s) <- decrypt max k b s;
        match recv with
        | None => Ok (None, s)
        | Some r => let (first, s) := decide s in
                    do s <- (if first then send_empty max s else Ok s); Ok (Some r, s)
        end);
     match recv with
     | None => buffer_free b s
     | Some r => do _ <- use r s; let (empty, s) := decide s in
                 if empty then buffer_free r s else handle_receive max r s
     end) (fun s' => H s' [])).
  { intros s1 H1. pick. apply wp_bind. call wp_decrypt.
    unfold crypt_post in HH0. destruct o as [r|]; cbn [fst snd] in HH0.
    - pick.
      + call wp_send_empty. apply (last (Some r)). exact HH1.
      + cbn [bind wp]. apply (last (Some r)). exact HH0.
    - cbn [wp]. apply (last None). exact HH0. }
  pick.
  - pick. call wp_decrypt. destruct o as [r|].
    + cbn [bind]. apply (last (Some r)). exact HH0.
    + apply next. exact HH0.
  - cbn [bind]. apply next. exact HH.
Qed.

Lemma wp_send_new : forall max s U, H s U -> length U <= 1 -> wp (send_new_handshake max s) (fun s' => H s' U).
Proof. intros max s U HH HU. unfold send_new_handshake. call wp_alloc. usebuf. lastfree. Qed.
Lemma wp_send_reply : forall max s U, H s U -> length U <= 1 -> wp (send_reply max s) (fun s' => H s' U).
Proof. intros max s U HH HU. unfold send_reply. pick; [exact HH|]. apply wp_send_new; auto. Qed.
Lemma wp_establish : forall max s U, H s U -> length U <= 1 -> wp (establish max s) (fun r => H (snd r) U).
Proof.
  intros max s U HH HU. unfold establish. pick; [|exact HH]. pick; [exact HH|]. call wp_send_empty. exact HH0.
Qed.

Lemma wp_finish : forall max s b, H s [b] -> wp (finish_handshake max b s) (fun s' => H s' [b]).
Proof.
  intros max s b HH. unfold finish_handshake. usebuf. pick; [|apply wp_send_reply; auto]. usebuf. pick; [|exact HH].
  call wp_establish. destruct b0; [apply wp_send_new; auto | exact HH0].
Qed.
Lemma wp_handle_finish : forall max s b, H s [b] -> wp (handle_finish_handshake max b s) (fun s' => H s' [b]).
Proof.
  intros max s b HH. unfold handle_finish_handshake. usebuf. pick; [|apply wp_send_reply; auto]. usebuf. pick; [|exact HH].
  call wp_establish. exact HH0.
Qed.

Lemma wp_handshake_handle : forall max s b, H s [b] -> wp (handshake_handle max b s) (fun s' => H s' [b]).
Proof.
  intros max s b HH. unfold handshake_handle. usebuf. pick; [apply wp_send_reply; auto|]. usebuf. pick.
  assert (G := wp_handle_finish max _ b HH).
  destruct n as [|[q|[q|q|]|]]; try exact G.
  - exact HH.
  - apply wp_finish. exact HH.
  - usebuf. apply wp_send_reply; auto.
Qed.

Lemma wp_socket : forall max s b, H s [b] -> wp (handle_socket_receive max b s) (fun s' => H s' []).
Proof.
  intros max s b HH. unfold handle_socket_receive. pick; [lastfree|]. usebuf. pick; [lastfree|]. usebuf.
  pick; [apply wp_handle_recv; exact HH|]. pick. apply wp_bind.
  match goal with HQ : H ?p [b] |- _ => assert (G : wp (send_reply max p) (fun s' => wp (buffer_free b s') (fun s' => H s' []))) end.
  { eapply wp_mono; [apply wp_send_reply; [exact HH | cbn; lia]|]. intros a Ha. apply (wp_free 3). exact Ha. }
  destruct n as [|[q|q|]]; try exact G.
  - cbn [wp]. lastfree.
  - eapply wp_mono; [apply wp_handshake_handle; exact HH|]. intros a Ha. apply (wp_free 3). exact Ha.
Qed.

Lemma wp_handle : forall max e s, H s [] -> wp (handle max e s) (fun s' => H s' []).
Proof.
  intros max e s HH. destruct e; cbn [handle].
  - unfold receive. call wp_alloc. usebuf. pick; [|lastfree]. usebuf. apply wp_socket. exact HH0.
  - unfold iface_handle. call wp_alloc. usebuf. pick; [|exact Logic.I]. usebuf. apply wp_send_data. exact HH0.
  - unfold handle_task. pick; [exact HH|]. pick.
    + apply wp_bind. call wp_alloc. eapply wp_mono; [apply wp_protocol_send; [exact HH0 | cbn; lia]|].
      intros a Ha. apply wp_send_reply; auto.
    + cbn [bind]. apply wp_send_reply; auto.
  - apply wp_send_reply; auto.
Qed.

Lemma wp_run : forall max l s, H s [] -> wp (run max l s) (fun s' => H s' []).
Proof.
  intros max. induction l as [|(e, c) l IH]; intros s HH; cbn [run]; [exact HH|].
  apply wp_bind. eapply wp_mono; [apply wp_handle; apply holds_choices; exact HH|]. intros a Ha. apply IH. exact Ha.
Qed.

Lemma init_ok : exists s, init BUFFER_COUNT = Ok s /\ H s [].
Proof.
  eexists. split; [reflexivity|]. split; [reflexivity|].
  exists [2; 1; 0]. split; [|split].
  - repeat econstructor.
  - cbn. change [0; 1; 2] with (rev [2; 1; 0]). apply Permutation_rev.
  - intros b [].
Qed.

Lemma free_list_chain : forall cells p l, chain cells p l -> forall n, length l <= n -> free_list n cells p = Some l.
Proof.
  intros cells p l HC. induction HC as [|b q l Hb HC IH]; intros n Hn; [destruct n; reflexivity|].
  destruct n as [|n]; [cbn in Hn; lia|]. cbn. rewrite Hb. rewrite IH by (cbn in Hn; lia). reflexivity.
Qed.

Lemma holds_all_free : forall n s, holds n s [] -> all_free n s.
Proof.
  intros n s (HL & L & HC & HP & _). split; [exact HL|]. rewrite app_nil_r in HP. exists L. split; [|split].
  - apply free_list_chain; auto. apply Permutation_length in HP. rewrite seq_length in HP. lia.
  - apply (Permutation_NoDup (Permutation_sym HP)), seq_NoDup.
  - intros b. rewrite <- seq_in. split; apply Permutation_in; [exact HP | symmetry; exact HP].
Qed.

Lemma cleanup_ok : forall max s, H s [] -> wp (cleanup_buffers max BUFFER_COUNT s) (fun _ => True).
Proof.
  intros max s HH. change BUFFER_COUNT with 3. cbn [cleanup_buffers].
  apply wp_bind. eapply wp_mono; [apply (wp_buffer_alloc 3); [exact HH | cbn; lia]|]. intros (b1, s1) H1.
  apply wp_bind. eapply wp_mono; [apply (wp_buffer_alloc 3); [exact H1 | cbn; lia]|]. intros (b2, s2) H2.
  apply wp_bind. eapply wp_mono; [apply (wp_buffer_alloc 3); [exact H2 | cbn; lia]|]. intros (b3, s3) H3.
  cbn [fst snd] in H3. destruct H3 as (HL & L & HC & HP & _).
  apply Permutation_length in HP. rewrite app_length, seq_length in HP. cbn in HP.
  destruct L as [|x L]; [|cbn in HP; lia]. inversion HC. reflexivity.
Qed.

Lemma alloc0 : forall max s, buffer_alloc max 0 0 s <> Fatal.
Proof.
  intros max s. unfold buffer_alloc. replace (max <? _)%N with false by (symmetry; apply N.ltb_ge; cbn; lia).
  destruct (p_head s); [|discriminate]. destruct (nth_error (p_cells s) n) as [c|]; [|discriminate].
  destruct (negb _); [discriminate|]. destruct (c_data c); discriminate.
Qed.
Lemma cleanup_fatal : forall max n s, cleanup_buffers max n s <> Fatal.
Proof.
  intros max. induction n as [|n IH]; intros s; cbn [cleanup_buffers]; [destruct (p_head s); discriminate|].
  pose proof (alloc0 max s) as G. destruct (buffer_alloc max 0 0 s) as [(b, s') | | |]; cbn [bind]; auto; discriminate.
Qed.

Lemma pool_main : forall max l,
  match (do s <- init BUFFER_COUNT; run max l s) with
  | Ok s => all_free BUFFER_COUNT s /\ exists s', cleanup_buffers max BUFFER_COUNT s = Ok s'
  | Fatal => True
  | Bug | UB => False
  end.
Proof.
  intros max l. destruct init_ok as (s & -> & HH). cbn [bind].
  pose proof (wp_run max l s HH) as G. destruct (run max l s) as [s' | | |]; cbn [wp] in G; auto.
  split; [apply (holds_all_free 3); exact G|]. pose proof (cleanup_ok max s' G) as C. pose proof (cleanup_fatal max BUFFER_COUNT s') as F.
  destruct (cleanup_buffers max BUFFER_COUNT s') as [s'' | | |]; cbn [wp] in C; try contradiction; eauto.
Qed.
