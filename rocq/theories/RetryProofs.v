(** When handshakes are sent: the properties *)
From Verif Require Import Base BufferModel NodeModel NodeSpec NodeSteps NodeWf NodeInv NodeProofs RetryHoare2 RetryInv RetrySpec RetryTurn2 RetryKeep RetryRound.
From Coq Require Import Lia.
Local Open Scope Z_scope.

Lemma wanted_active : forall P n p, reachable P n -> In p (n_peers n) -> is_enabled p = true -> actp p.
Proof.
  intros P n p R Hp We. pose proof (reachable_inv _ _ R) as Inv. apply (i_alive _ _ Inv (p_id p) p); [|exact We]. apply in_find; [apply (i_wf _ _ (i_0 _ _ Inv)) | exact Hp].
Qed.
Lemma retry_scheduled : forall P n p, reachable P n -> In p (n_peers n) -> wanted p ->
  exists h tk, p_next_hs p = Some h /\ p_task p = Some tk /\ tk <= h <= n_now n + 22500.
Proof.
  intros P n p R Hp (W1 & W2 & W3). destruct (reachable_goods _ _ R) as [_ G]. exact (g_retry _ _ _ _ (G p Hp) (wanted_active _ _ _ R Hp W1) W2 W3).
Qed.
Lemma refresh_scheduled : forall P n p s, reachable P n -> In p (n_peers n) -> p_sess p = Some s -> ss_refreshing s = true ->
  is_established p = true /\ exists h tk, p_next_hs p = Some h /\ p_task p = Some tk /\ tk <= h <= n_now n + 22500.
Proof.
  intros P n p s R Hp Es Er. destruct (reachable_goods _ _ R) as [_ G]. destruct (g_refr _ _ _ _ (G p Hp)) as (A & _ & B); [unfold refr; rewrite Es; exact Er|]. split; [exact A | exact B].
Qed.
Lemma not_postponed : forall P n dt ev n' p h p', reachable P n -> In p (n_peers n) -> wanted p -> p_next_hs p = Some h -> handles P n dt ev n' ->
  (ev = EvTask (p_id p) -> n_now n' < h) -> In p' (n_peers n') -> p_id p' = p_id p -> wanted p' ->
  (p_next_hs p' = Some h /\ position p' = position p /\ addresses p' = addresses p) \/
  (position p' = Some (0, 0)%nat /\ exists h', p_next_hs p' = Some h' /\ n_now n' <= h' /\ (h' < n_now n' + 3000 \/ (p_state p' = Resolving /\ h' < n_now n' + 22500))) \/
  ((exists k l, ev = EvResolved k l) /\ p_next_remote p' = p_next_remote p /\ (p_next_hs p' = Some h \/ exists h', p_next_hs p' = Some h' /\ n_now n' <= h' < n_now n' + 3000)).
Proof.
  intros P n dt ev n' p h p' R Hp W Hh H Hd Hp' Hi' W'. destruct (kept_not P n dt ev n' p h p' R Hp W Hh H Hd Hp' Hi' W') as [(A & B & C) | [(A & d & B & C & D) | (A & B & C)]].
  - left. split; [exact C|]. unfold position, addresses. rewrite A, B. split; reflexivity.
  - right. left. split; [exact A|]. exists (n_now n' + d). split; [exact B|]. split; [lia|]. destruct D as [(D1 & D2) | (D1 & D2)]; [left; lia | right; split; [exact D1 | lia]].
  - right. right. split; [exact A|]. split; [exact B|]. destruct C as [C | (d & C & D)]; [left; exact C | right]. exists (n_now n' + d). split; [exact C | lia].
Qed.
Lemma turn_effect : forall P n dt n' p, reachable P n -> In p (n_peers n) -> wanted p -> turn P n dt n' p ->
  exists p' l, In p' (n_peers n') /\ p_id p' = p_id p /\ wanted p' /\ says n n' l /\ soon n' p' /\ addresses p' = addresses p /\
    ((full P n p /\ position p' = None /\ l = []) \/
     (~ full P n p /\ position p = None /\ position p' = Some (0, 0)%nat /\ lookup p 0 l) \/
     (~ full P n p /\ exists x l1 l2, position p = Some x /\ position p' = Some (following (addresses p) x) /\ l = l1 ++ l2 /\ attempt n p p' x l1 /\
        (if Nat.ltb (S (snd x)) (length (nth (fst x) (addresses p) [])) then l2 = [] else lookup p (fst (following (addresses p) x)) l2))).
Proof.
  intros P n dt n' p R Hp W T. destruct (turn_done _ _ _ _ _ R Hp W T) as (p' & l & Hf & Ho & Hs & Ha & Hc & D). apply find_id_in in Hf. destruct Hf as [Hf1 Hf2].
  exists p', (rev l). split; [exact Hf1|]. split; [exact Hf2|].
  assert (W' : wanted p').
  { destruct W as (W1 & W2 & W3). split; [unfold is_enabled in *; rewrite Hc; exact W1|]. split.
    - destruct D as [(_ & _ & _ & D) | [(_ & _ & _ & _ & D) | (_ & D & _)]]; unfold is_established in *; rewrite D; try exact W2. reflexivity.
    - intros X. apply W3. apply length_zero_iff_nil. apply (f_equal (@length (list addr))) in Ha. unfold addresses in Ha. rewrite !map_length, X in Ha. symmetry. exact Ha. }
  split; [exact W'|]. split; [unfold says; rewrite rev_involutive; exact Ho|]. split; [exact Hs|]. split; [exact Ha|].
  assert (Hl : forall i l0, lookup p i l0 -> lookup p i (rev l0)) by (intros i l0 [-> | (-> & X)]; [left; reflexivity | right; split; [reflexivity | exact X]]).
  destruct D as [(D1 & D2 & D3 & _) | [(D1 & D2 & D3 & D4 & _) | (D1 & _ & y & l1 & l2 & D3 & D4 & D5 & D6 & D7)]].
  - left. split; [exact D1|]. split; [unfold position; rewrite D2; reflexivity | rewrite D3; reflexivity].
  - right. left. split; [exact D1|]. split; [unfold position; rewrite D2; reflexivity|]. split; [exact D3 | apply Hl; exact D4].
  - right. right. split; [exact D1|]. exists y, (rev l1), (rev l2). split; [exact D3|]. split; [exact D4|]. split; [rewrite D5; apply rev_app_distr|]. split.
    + unfold attempt in *. destruct (nth_error _ _) as [a|]; [destruct D6 as [-> | (-> & X)]; [left; reflexivity | right; split; [reflexivity | exact X]] | destruct D6 as [X ->]; split; [exact X | reflexivity]].
    + destruct (Nat.ltb _ _); [rewrite D7; reflexivity | apply Hl; exact D7].
Qed.
Lemma round_visits : forall P pid n l n' p x, reachable P n -> journey P pid n l n' -> wants n' pid p ->
  (length (positions p) < length l)%nat -> In x (positions p) -> In x l.
Proof. exact journey_round. Qed.
