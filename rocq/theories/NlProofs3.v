(** * Netlink messages: a request and the replies to it *)

From Coq Require Import List NArith ZArith Bool Lia ZifyBool ZifyNat ZifyN.
From Verif Require Import NlModel NlSpec NlProofs NlProofs2.
Import ListNotations.
Import NlSpec.
Local Open Scope Z_scope.

Definition loop_agrees {D : Type} (rep : option (list byte) -> D) (x : final) (o : out (bool * Z * D)) : Prop :=
  match x with
  | Pending => o = Waiting
  | Lost e v => o = Done (true, e, rep v)
  | Decided (Success v) => exists e, o = Done (true, e, rep v)
  | Decided (Failure e v) => o = Done (false, e, rep v)
  | Decided (Open _) => False
  end.

Lemma nl_loop_ok : forall (D : Type) le r seq (cb : option (attr_cb D)) rep, cb_good le r cb rep ->
  forall l fuel buf e v,
  Forall (arrival_wf le (length buf)) l -> size buf < 2 ^ 31 -> size buf < Z.of_nat fuel ->
  loop_agrees rep (outcome r seq l v) (nl_loop le cb seq 0 4 fuel buf (map (arrived le) l) e (rep v)).
Proof.
  intros D le r seq cb rep Hcb l. induction l as [| x l IH]; intros fuel buf e v F Hb Hf; cbn [outcome map nl_loop].
  - reflexivity.
  - apply Forall_cons_iff in F. destruct F as [F1 F2]. destruct x as [er | ms]; cbn [arrived receive].
    + reflexivity.
    + destruct F1 as [F1 F3]. replace (size buf <? size (datagram le ms)) with false by (unfold size; lia).
      destruct (cb_run_ok D le r seq cb rep Hcb ms fuel [] (skipn (length (datagram le ms)) buf) e v F1) as [o [Eo Ao]];
        [unfold size in *; lia | unfold size in *; lia |].
      cbn [app size length Z.of_nat] in Eo. change (size []) with 0 in Eo. rewrite Eo. cbn [bind].
      destruct o as [[res e'] d]. destruct (verdict_of r seq ms v) as [v' | v' | er v']; cbn [agrees] in Ao.
      * injection Ao as -> -> ->. change (CB_STOP <? CB_OK) with true. cbv iota.
        assert (El : length (datagram le ms ++ skipn (length (datagram le ms)) buf) = length buf)
          by (rewrite app_length, skipn_length; lia).
        apply IH; [rewrite El; assumption | unfold size in *; rewrite El; assumption | unfold size in *; rewrite El; assumption].
      * destruct Ao as [e'' Ao]. injection Ao as -> -> ->. cbn. eexists. reflexivity.
      * injection Ao as -> -> ->. reflexivity.
Qed.

(** Names without zeros, and of at most 15 bytes *)
Definition plain (v : option (list byte)) : Prop :=
  forall x, v = Some x -> ~ In 0%N x /\ (length x <= 15)%nat.
Lemma to_zero_plain : forall l, ~ In 0%N (to_zero l).
Proof.
  induction l as [| c l IH]; cbn [to_zero]; [intros [] |].
  destruct (N.eqb_spec c 0) as [E | E]; [intros [] |]. intros [H | H]; [congruence | exact (IH H)].
Qed.
Lemma in_firstn : forall (A : Type) n (l : list A) x, In x (firstn n l) -> In x l.
Proof.
  intros A n. induction n as [| n IH]; intros l x H; [destruct H |]. destruct l as [| a l]; [destruct H |].
  cbn in H. destruct H as [H | H]; [left; exact H | right; exact (IH l x H)].
Qed.

Definition verdict_value (x : verdict) : option (list byte) := match x with Open v | Success v | Failure _ v => v end.
Lemma attrs_plain : forall id l v, plain v -> plain (verdict_value (attrs_verdict (SessionGet id) l v)).
Proof.
  intros id l. induction l as [| a l IH]; intros v H; cbn [attrs_verdict]; [exact H |].
  unfold meaning. destruct (fst a mod 2 ^ 14 =? 8); [| exact (IH v H)].
  destruct (rev (snd a)) as [| c d]; [exact H |]. destruct (c =? 0)%N; [| exact H].
  apply IH. intros x Hx. assert (Ex : firstn 15 (to_zero (snd a)) = x) by congruence. rewrite <- Ex. split.
  - intros Hin. apply in_firstn in Hin. exact (to_zero_plain _ Hin).
  - rewrite firstn_length. lia.
Qed.
Lemma reply_plain : forall id seq m v, plain v -> plain (verdict_value (reply_verdict (SessionGet id) seq m v)).
Proof.
  intros id seq m v H. unfold reply_verdict. destruct (mine seq m); cbn [negb]; [| exact H].
  destruct (Z.testbit (r_flags m) 4); [exact H |].
  destruct (r_body m) as [t h l | c rest | rest | t rest]; try exact H; [now apply attrs_plain |].
  destruct (c =? 0); exact H.
Qed.
Lemma verdict_plain : forall id seq ms v, plain v -> plain (verdict_value (verdict_of (SessionGet id) seq ms v)).
Proof.
  intros id seq ms. induction ms as [| m ms IH]; intros v H; cbn [verdict_of]; [exact H |].
  pose proof (reply_plain id seq m v H) as P.
  destruct (reply_verdict (SessionGet id) seq m v) as [v' | v' | e v']; cbn [verdict_value] in *; auto.
Qed.
Definition final_value (x : final) : option (list byte) :=
  match x with Decided y => verdict_value y | Lost _ v => v | Pending => None end.
Lemma outcome_plain : forall id seq l v, plain v -> plain (final_value (outcome (SessionGet id) seq l v)).
Proof.
  intros id seq l. induction l as [| a l IH]; intros v H; cbn [outcome]; [intros x Hx; discriminate |].
  destruct a as [e | ms]; [exact H |].
  pose proof (verdict_plain id seq ms v H) as P.
  destruct (verdict_of (SessionGet id) seq ms v) as [v' | v' | e v']; cbn [verdict_value final_value] in *; auto.
Qed.

Lemma name_answer : forall le id name v ok, plain v ->
  AName (if negb ok then None else if (hd 0%N (name_rep name v) =? 0)%N then None else Some (name_rep name v))
    = answer_of le (SessionGet id) ok v.
Proof.
  intros le id name v ok H. cbn [answer_of]. f_equal. destruct v as [x |]; cbn [name_rep].
  - destruct (H x eq_refl) as [H0 Hl]. destruct ok; cbn [negb andb]; [| reflexivity].
    destruct x as [| c x]; [reflexivity |]. cbn [app hd length Nat.eqb negb].
    destruct (N.eqb_spec c 0) as [E | E]; [| reflexivity]. exfalso. apply H0. left. exact E.
  - destruct ok; reflexivity.
Qed.

Lemma do_nl_sent : forall (D : Type) le fam r n (cb : option (attr_cb D)) fuel last buf0 sent rs e d,
  name_fits r ->
  do_nl le cb fuel last (buf le (20 + attrs_size (attributes le r))
      (start_body le (kind fam r) (command r) 1 ++ concat (map (attr_bytes le) (attributes le r))) n) buf0 sent rs e d =
  match sent with
  | Some er => Done (request_bytes le fam (u32 (last + 1)) r, u32 (last + 1), (true, er, d))
  | None => x <- nl_loop le cb (u32 (last + 1)) 0 4 fuel buf0 rs e d ;;
            Done (request_bytes le fam (u32 (last + 1)) r, u32 (last + 1), x)
  end.
Proof.
  intros D le fam r n cb fuel last buf0 sent rs e d Hr. unfold do_nl.
  destruct (request_sent le fam r n (u32 (last + 1)) Hr) as [msg [E1 [E2 E3]]].
  rewrite E1. cbn [bind]. rewrite E2. cbn [bind]. rewrite E3. reflexivity.
Qed.

(** The three kinds of request, without regard to what happens in the loop *)
Lemma run_request_eq : forall le fuel last fam n buf0 name sent rs e r,
  name_fits r -> (128 <= n)%nat ->
  run_request le fuel last fam n buf0 name sent rs e r =
  (let data := request_bytes le fam (u32 (last + 1)) r in
   let seq := u32 (last + 1) in
   let loop {D : Type} (cb : option (attr_cb D)) (d : D) :=
     match sent with Some er => Done (true, er, d) | None => nl_loop le cb seq 0 4 fuel buf0 rs e d end in
   match r with
   | Family => x <- loop (Some (getfamily_cb le)) (-1) ;; let '(ok, e, id) := x in Done (data, seq, e, AFamily id)
   | SessionGet _ => x <- loop (Some (get_ifname_cb le)) (0%N :: tl name) ;; let '(ok, e, name) := x in
       Done (data, seq, e, AName (if negb ok then None else if (hd 0%N name =? 0)%N then None else Some name))
   | _ => x <- loop (D := unit) None tt ;; let '(ok, e, _) := x in Done (data, seq, e, ABool ok)
   end).
Proof.
  intros le fuel last fam n buf0 name sent rs e r Hr Hn. unfold run_request.
  destruct (build_buf le fam r n Hr Hn) as [m Em]. rewrite Em. cbn [bind].
  destruct r as [| fd id | id s | id | id]; rewrite do_nl_sent by exact Hr;
    (destruct sent as [er |]; [reflexivity |]); cbv zeta;
    match goal with |- bind (bind ?x _) _ = _ => destruct x as [[[ok e'] d] | | |] end; reflexivity.
Qed.

Lemma replies_ok : forall le fuel last fam n buf0 name e r l,
  name_fits r -> (128 <= n)%nat -> size buf0 < 2 ^ 31 -> size buf0 < Z.of_nat fuel ->
  Forall (arrival_wf le (length buf0)) l ->
  run_agrees le r (request_bytes le fam (u32 (last + 1)) r) (u32 (last + 1)) (outcome r (u32 (last + 1)) l None)
    (run_request le fuel last fam n buf0 name None (map (arrived le) l) e r).
Proof.
  intros le fuel last fam n buf0 name e r l Hr Hn Hb Hf F.
  rewrite run_request_eq by assumption. cbv zeta. set (seq := u32 (last + 1)).
  assert (Unit : (forall a, meaning r a = Skip) ->
    run_agrees le r (request_bytes le fam seq r) seq (outcome r seq l None)
      (x <- nl_loop le (@None (attr_cb unit)) seq 0 4 fuel buf0 (map (arrived le) l) e tt ;;
       let '(ok, e, _) := x in Done (request_bytes le fam seq r, seq, e, ABool ok)) \/ answer_of le r true None <> ABool true).
  { intros Hskip. destruct r; try (right; discriminate); left;
      (pose proof (nl_loop_ok unit le _ seq None (fun _ => tt) Hskip l fuel buf0 e None F Hb Hf) as P;
       cbv beta in P;
       match type of P with loop_agrees _ ?x _ => destruct x as [[v | v | er v] | er v |] end; cbn [loop_agrees run_agrees] in *;
       [exact P | destruct P as [e' P]; rewrite P; eexists; reflexivity | rewrite P; reflexivity | rewrite P; reflexivity
        | rewrite P; reflexivity]). }
  destruct r as [| fd id | id s | id | id].
  - pose proof (nl_loop_ok Z le Family seq (Some (getfamily_cb le)) (family_rep le) (getfamily_cb_ok le) l fuel buf0 e None F Hb Hf) as P.
    change (family_rep le None) with (-1) in P.
    destruct (outcome Family seq l None) as [[v | v | er v] | er v |]; cbn [loop_agrees run_agrees] in *;
      [exact P | destruct P as [e' P]; rewrite P; eexists; reflexivity | rewrite P; reflexivity | rewrite P; reflexivity
        | rewrite P; reflexivity].
  - destruct (Unit (fun _ => eq_refl)) as [U | U]; [exact U | now destruct U].
  - destruct (Unit (fun _ => eq_refl)) as [U | U]; [exact U | now destruct U].
  - pose proof (nl_loop_ok (list byte) le (SessionGet id) seq (Some (get_ifname_cb le)) (name_rep name)
                  (get_ifname_cb_ok le id name) l fuel buf0 e None F Hb Hf) as P.
    change (name_rep name None) with (0%N :: tl name) in P.
    assert (Pl : plain (final_value (outcome (SessionGet id) seq l None))) by (apply outcome_plain; intros x Hx; discriminate).
    destruct (outcome (SessionGet id) seq l None) as [[v | v | er v] | er v |]; cbn [loop_agrees run_agrees final_value verdict_value] in *.
    + exact P.
    + destruct P as [e' P]. rewrite P. cbn [bind]. eexists. now rewrite name_answer with (le := le) (id := id).
    + rewrite P. cbn [bind]. now rewrite name_answer with (le := le) (id := id).
    + rewrite P. cbn [bind]. now rewrite name_answer with (le := le) (id := id).
    + rewrite P. reflexivity.
  - destruct (Unit (fun _ => eq_refl)) as [U | U]; [exact U | now destruct U].
Qed.

Lemma send_failed : forall le fuel last fam n buf0 name e r rs er,
  name_fits r -> (128 <= n)%nat ->
  run_request le fuel last fam n buf0 name (Some er) rs e r =
    Done (request_bytes le fam (u32 (last + 1)) r, u32 (last + 1), er, answer_of le r true None).
Proof.
  intros. rewrite run_request_eq by assumption. destruct r; reflexivity.
Qed.

Lemma sent_always : forall le fuel last fam n buf0 name sent rs e r data seq e' a,
  name_fits r -> (128 <= n)%nat ->
  run_request le fuel last fam n buf0 name sent rs e r = Done (data, seq, e', a) ->
  data = request_bytes le fam seq r /\ seq = (last + 1) mod 2 ^ 32.
Proof.
  intros le fuel last fam n buf0 name sent rs e r data seq e' a Hr Hn H.
  rewrite run_request_eq in H by assumption. cbv zeta in H.
  assert (S : seq = u32 (last + 1) /\ data = request_bytes le fam (u32 (last + 1)) r).
  { destruct r; match type of H with bind ?x _ = _ => destruct x as [[[ok e2] d] | | |] end; cbn [bind] in H; try discriminate H;
      now inversion H. }
  destruct S as [-> ->]. now split.
Qed.
