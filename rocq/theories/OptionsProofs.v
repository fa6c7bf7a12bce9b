(** Numbers and addresses on the command line. *)
From Verif Require Import Base BufferModel MethodModel AddrModel LexModel LexSpec ConfigModel ConfigSpec ConfigProofs ConfigProofs2 ConfigProofs3
  OptionsModel OptionsSpec.
From Verif Require HandshakeProofs2.
From Coq Require Import String.
Local Open Scope N_scope.

(** * Numbers *)

Lemma digit_iff c : match digit c with Some d => is_digit c /\ d = c - 48 | None => ~ is_digit c end.
Proof. unfold digit, is_digit. destruct (N.leb_spec 48 c), (N.leb_spec c 57); cbn; lia. Qed.
Definition no_digit (r : bytes) : Prop := match r with [] => True | c :: _ => ~ is_digit c end.
Lemma digits_split s : forall acc any, exists ds r, s = ds ++ r /\ Forall is_digit ds /\ no_digit r /\
  digits acc any s = (if any || negb (match ds with [] => true | _ => false end) then Some (fold_left (fun n c => 10 * n + (c - 48)) ds acc) else None, r).
Proof.
  induction s as [|c s IH]; intros acc any.
  - exists [], []. repeat split; [constructor|]. cbn. rewrite orb_false_r. reflexivity.
  - cbn [digits]. pose proof (digit_iff c) as D. destruct (digit c) as [d|].
    + destruct D as [D ->]. destruct (IH (10 * acc + (c - 48)) true) as (ds & r & -> & F & R & ->).
      exists (c :: ds), r. split; [reflexivity|]. split; [constructor; assumption|]. split; [exact R|]. cbn. rewrite orb_true_r. reflexivity.
    + exists [], (c :: s). split; [reflexivity|]. split; [constructor|]. split; [exact D|]. cbn. rewrite orb_false_r. reflexivity.
Qed.
Lemma digits_all ds acc : Forall is_digit ds -> ds <> [] -> digits acc false ds = (Some (fold_left (fun n c => 10 * n + (c - 48)) ds acc), []).
Proof.
  intros F N. destruct (digits_split ds acc false) as (ds' & r & E & F' & R & ->). destruct r as [|c r].
  - rewrite app_nil_r in E. subst ds'. destruct ds; [contradiction|reflexivity].
  - exfalso. rewrite E in F. apply Forall_app in F. destruct F as [_ F]. inversion F. cbn in R. contradiction.
Qed.
Lemma isspace_iff c : isspace c = true <-> space c.
Proof. unfold isspace, space. destruct (N.leb_spec 9 c), (N.leb_spec c 13), (N.eqb_spec c 32); cbn; (split; [intros X|intros [X|X]]); try lia; try discriminate; try reflexivity. Qed.
Definition no_space (t : bytes) : Prop := match t with [] => True | c :: _ => ~ space c end.
Lemma skip_app ws t : Forall space ws -> no_space t -> skip_spaces (ws ++ t) = t.
Proof.
  intros F N. induction F as [|c ws S F IH]; cbn [List.app].
  - destruct t as [|c t]; [reflexivity|]. cbn. destruct (isspace c) eqn:S; [|reflexivity]. apply isspace_iff in S. destruct (N S).
  - cbn. apply isspace_iff in S. rewrite S. exact IH.
Qed.
Lemma skip_split s : exists ws t, s = ws ++ t /\ Forall space ws /\ no_space t.
Proof.
  induction s as [|c s IH]; [exists [], []; repeat split; constructor|]. destruct (isspace c) eqn:S.
  - destruct IH as (ws & t & -> & F & N). exists (c :: ws), t. repeat split; [|exact N]. constructor; [apply isspace_iff; exact S|exact F].
  - exists [], (c :: s). repeat split; [constructor|]. cbn. intros X. apply isspace_iff in X. congruence.
Qed.
Lemma decimal_any ds : decimal ds = fold_left (fun n c => 10 * n + (c - 48)) ds 0.
Proof. reflexivity. Qed.

Lemma number_iff lo hi s n : (0 <= lo)%Z -> (hi < 2 ^ 63 - 1)%Z -> (number lo hi s = Ok n <-> number_text s n /\ (lo <= Z.of_N n <= hi)%Z).
Proof.
  intros LO HI. unfold number, strtol. cbv zeta.
  assert (RES : forall z n, (if (negb true || (z <? lo)%Z || (hi <? z)%Z) then Fatal else Ok (Z.to_N z)) = Ok n <-> (lo <= z <= hi)%Z /\ n = Z.to_N z).
  { intros z m. cbn [negb orb]. destruct (Z.ltb_spec z lo), (Z.ltb_spec hi z); cbn [orb]; split; try discriminate; try lia.
    - intros [= <-]. split; [lia|reflexivity].
    - intros [_ ->]. reflexivity. }
  split.
  - destruct (skip_split s) as (ws & t & -> & F & NS). rewrite (skip_app ws t F NS).
    assert (SG : exists sg, t = sg ++ snd (sign t) /\ (fst (sign t) = false /\ (sg = [] \/ sg = [43]) \/ fst (sign t) = true /\ sg = [45])).
    { unfold sign. destruct t as [|c r]; [exists []; repeat split; left; repeat split; left; reflexivity|].
      destruct (N.eqb_spec c 45) as [->|_]; [exists [45]; repeat split; right; repeat split|].
      destruct (N.eqb_spec c 43) as [->|_]; [exists [43]; repeat split; left; repeat split; right; reflexivity|].
      exists []. repeat split. left. repeat split. left. reflexivity. }
    destruct (sign t) as [neg t0]. cbn [fst snd] in SG. destruct SG as (sg & -> & SG).
    destruct (digits_split t0 0 false) as (ds & r & -> & D & R & ->). rewrite <- decimal_any. cbn [orb]. destruct ds as [|d ds].
    + cbn [negb]. destruct (ws ++ sg ++ [] ++ r) as [|x l] eqn:X; [|discriminate]. rewrite RES. intros [L ->]. split; [|lia]. left. split; reflexivity.
    + cbn [negb]. destruct r as [|x r]; [|discriminate]. rewrite RES. intros [L ->]. rewrite app_nil_r.
      set (m := decimal (d :: ds)) in *.
      assert (CL : clamp (if neg then - Z.of_N m else Z.of_N m)%Z = (if neg then - Z.of_N m else Z.of_N m)%Z).
      { unfold clamp in *. destruct neg; lia. }
      rewrite CL in *. split; [|lia]. right. exists ws, sg, (d :: ds). split; [reflexivity|]. split; [exact F|].
      destruct SG as [[-> SG]|[-> ->]].
      * rewrite N2Z.id. split; [destruct SG as [->| ->]; [left|right; left]; reflexivity|]. split; [discriminate|]. split; [exact D|reflexivity].
      * assert (Z0 : m = 0) by lia. rewrite Z0. split; [right; right; split; reflexivity|]. split; [discriminate|]. split; [exact D|]. symmetry. exact Z0.
  - intros [[[-> ->]|(ws & sg & ds & -> & F & SG & ND & D & ->)] L].
    + cbn [skip_spaces sign digits]. rewrite RES. split; [lia|reflexivity].
    + set (m := decimal ds) in *.
      assert (ND0 : exists d ds', ds = d :: ds') by (destruct ds as [|d ds']; [contradiction|exists d, ds'; reflexivity]).
      destruct ND0 as (d & ds' & E0). assert (Dd : is_digit d) by (rewrite E0 in D; inversion D; assumption).
      unfold is_digit in Dd.
      assert (NS : no_space (sg ++ ds)).
      { destruct SG as [->|[->|[-> _]]]; [rewrite E0| |]; cbn; unfold space; lia. }
      rewrite (skip_app ws _ F NS).
      destruct SG as [->|[->|[-> Z0]]]; cbn [List.app]; unfold sign.
      * rewrite E0. destruct (N.eqb_spec d 45) as [?|_]; [lia|]. destruct (N.eqb_spec d 43) as [?|_]; [lia|]. rewrite <- E0.
        rewrite (digits_all ds 0 D ND), <- decimal_any. fold m. rewrite RES. unfold clamp. split; lia.
      * cbn [N.eqb Pos.eqb]. rewrite (digits_all ds 0 D ND), <- decimal_any. fold m. rewrite RES. unfold clamp. split; lia.
      * cbn [N.eqb Pos.eqb]. rewrite (digits_all ds 0 D ND), <- decimal_any. fold m. rewrite RES. unfold clamp. split; lia.
Qed.
Lemma number_fatal lo hi s : number lo hi s = Fatal \/ exists n, number lo hi s = Ok n.
Proof. unfold number. destruct (strtol s) as [z r]. destruct (_ || _); [left; reflexivity|right; eexists; reflexivity]. Qed.

(** * Strings *)

Lemma strrchr_iff s c : match strrchr s c with Some (a, b) => s = a ++ c :: b /\ ~ In c b | None => ~ In c s end.
Proof.
  induction s as [|x s IH]; cbn; [tauto|]. destruct (strrchr s c) as [[a b]|].
  - destruct IH as [-> N]. split; [reflexivity|exact N].
  - destruct (N.eqb_spec x c) as [->|N]; [split; [reflexivity|exact IH]|]. intros [X|X]; [exact (N X)|exact (IH X)].
Qed.
Lemma strrchr_ok a c b : ~ In c b -> strrchr (a ++ c :: b) c = Some (a, b).
Proof.
  intros N. induction a as [|x a IH]; cbn.
  - pose proof (strrchr_iff b c) as H. destruct (strrchr b c) as [[a' b']|].
    + destruct H as [-> _]. destruct N. apply in_or_app. right. left. reflexivity.
    + rewrite N.eqb_refl. reflexivity.
  - rewrite IH. reflexivity.
Qed.
Lemma strrchr_none s c : ~ In c s -> strrchr s c = None.
Proof.
  intros N. pose proof (strrchr_iff s c) as H. destruct (strrchr s c) as [[a b]|]; [|reflexivity].
  destruct H as [-> _]. destruct N. apply in_or_app. right. left. reflexivity.
Qed.
Lemma split_first_iff s c : match split_first s c with Some (a, b) => s = a ++ c :: b /\ ~ In c a | None => ~ In c s end.
Proof.
  induction s as [|x s IH]; cbn; [tauto|]. destruct (N.eqb_spec x c) as [->|N]; [split; [reflexivity|exact (fun F => F)]|].
  destruct (split_first s c) as [[a b]|].
  - destruct IH as [-> F]. split; [reflexivity|]. intros [X|X]; [exact (N X)|exact (F X)].
  - intros [X|X]; [exact (N X)|exact (IH X)].
Qed.
Lemma split_first_ok a c b : ~ In c a -> split_first (a ++ c :: b) c = Some (a, b).
Proof.
  induction a as [|x a IH]; cbn; intros N; [rewrite N.eqb_refl; reflexivity|].
  destruct (N.eqb_spec x c) as [X|_]; [destruct N; left; exact X|]. rewrite IH; [reflexivity|]. intros I. apply N. right. exact I.
Qed.
Lemma split_first_none s c : ~ In c s -> split_first s c = None.
Proof.
  intros N. pose proof (split_first_iff s c) as H. destruct (split_first s c) as [[a b]|]; [|reflexivity].
  destruct H as [-> _]. destruct N. apply in_or_app. right. left. reflexivity.
Qed.
Lemma number_text_bytes t n c : number_text t n -> In c t -> space c \/ c = 43 \/ c = 45 \/ is_digit c.
Proof.
  intros [[-> _]|(ws & sign & ds & -> & F & SG & _ & D & _)] I; [destruct I|].
  apply in_app_or in I. destruct I as [I|I]; [left; exact (proj1 (Forall_forall _ _) F _ I)|].
  apply in_app_or in I. destruct I as [I|I]; [|right; right; right; exact (proj1 (Forall_forall _ _) D _ I)].
  destruct SG as [->|[->|[-> _]]]; [destruct I| |]; destruct I as [<-|[]]; tauto.
Qed.
Lemma number_text_no t n c : number_text t n -> c = 58 \/ c = 93 -> ~ In c t.
Proof. intros H C I. apply (number_text_bytes t n c H) in I. unfold space, is_digit in I. lia. Qed.

(** * Addresses *)

Definition port_of (p : option (wport * N)) : option N := option_map snd p.
(** The text of the port, if there is one *)
Definition suffix_of (t : option bytes) : bytes := match t with None => [] | Some t => 58 :: t end.
Lemma suffix_iff (t : option bytes) p : port_suffix (suffix_of t) p <->
  (match t with None => p = None | Some t => exists n, number 0 65535 t = Ok n /\ p = Some (Colon, n) end).
Proof.
  destruct t as [t|]; cbn [suffix_of].
  - split.
    + destruct p as [[wp n]|]; [|discriminate]. intros (-> & L & nt & X & T). injection X as <-. exists n. split; [|reflexivity].
      apply number_iff; [lia|lia|]. split; [exact T|lia].
    + intros (n & H & ->). apply number_iff in H; [|lia|lia]. destruct H as [H L]. repeat split; [lia|]. exists t. split; [reflexivity|exact H].
  - destruct p as [[wp n]|]; [|split; reflexivity]. split; [|discriminate]. intros (_ & _ & nt & X & _). discriminate X.
Qed.
Lemma suffix_text t p : port_suffix t p -> exists s, t = suffix_of s /\ match s with None => p = None | Some s => ~ In 58 s /\ ~ In 93 s end.
Proof.
  destruct p as [[wp n]|]; cbn.
  - intros (_ & _ & nt & -> & T). exists (Some nt). split; [reflexivity|]. split; apply (number_text_no nt n); auto.
  - intros ->. exists None. split; reflexivity.
Qed.

Lemma run_bind E h p c dyn : run_m (bind_address E (host_of h p) None false false dyn) c = Ok (fold_left app_bind (map (fun a => Bind a None false false dyn) (hosts E h p)) c).
Proof. unfold run_m. rewrite bind_address_eq. unfold refused. rewrite andb_false_r. reflexivity. Qed.
(** [byte] and [N] are not the same to rewrite *)
Ltac rw L :=
  let H := fresh in pose proof L as H;
  lazymatch type of H with ?f _ _ = ?r => lazymatch goal with |- context [f ?x ?y] => replace (f x y) with r by (symmetry; exact H) end end; clear H.
Lemma parts_sound arg a s : bind_parts arg = Ok (a, s) ->
  if bracket arg then arg = [91] ++ a ++ [93] ++ suffix_of s /\ ~ In 93 (suffix_of s)
  else arg = a ++ suffix_of s /\ match s with None => ~ In 58 a | Some s => ~ In 58 s end.
Proof.
  unfold bind_parts. destruct (bracket arg) eqn:BR.
  - pose proof (strrchr_iff arg 93) as H. destruct (strrchr arg 93) as [[x y]|]; [|discriminate]. destruct H as [-> N].
    assert (X : exists x', x = 91 :: x').
    { destruct x as [|z x]; [discriminate BR|]. unfold bracket in BR. cbn in BR. apply N.eqb_eq in BR. subst z. exists x. reflexivity. }
    destruct X as [x' ->]. destruct y as [|z y].
    + intros [= <- <-]. split; [reflexivity|exact N].
    + destruct (N.eqb_spec z 58) as [->|]; [|discriminate]. intros [= <- <-]. split; [reflexivity|exact N].
  - pose proof (strrchr_iff arg 58) as H. destruct (strrchr arg 58) as [[x y]|].
    + destruct H as [-> N]. intros [= <- <-]. split; [reflexivity|exact N].
    + intros [= <- <-]. split; [rewrite app_nil_r; reflexivity|exact H].
Qed.
Lemma parts_6 (a : bytes) s : ~ In 93 (suffix_of s) -> bind_parts ([91] ++ a ++ [93] ++ suffix_of s) = Ok (a, s) /\ bracket ([91] ++ a ++ [93] ++ suffix_of s) = true.
Proof.
  intros N. split; [|reflexivity]. unfold bind_parts. change (bracket _) with true. cbv iota.
  rw (strrchr_ok (91 :: a) 93 _ N).
  destruct s; reflexivity.
Qed.
Lemma parts_4 (a : bytes) s : nth 0 (a ++ suffix_of s) 0 <> 91 -> match s with None => ~ In 58 a | Some s => ~ In 58 s end ->
  bind_parts (a ++ suffix_of s) = Ok (a, s) /\ bracket (a ++ suffix_of s) = false.
Proof.
  intros B N. assert (BR : bracket (a ++ suffix_of s) = false) by (apply N.eqb_neq; exact B). split; [|exact BR]. unfold bind_parts. rewrite BR.
  destruct s as [s|]; cbn [suffix_of].
  - rw (strrchr_ok a 58 s N). reflexivity.
  - rewrite app_nil_r. rw (strrchr_none a 58 N). reflexivity.
Qed.

(** The port that a text gives *)
Definition port_res (s : option bytes) : res (option N) := match s with None => Ok None | Some p => do n <- number 0 65535 p; Ok (Some n) end.
Lemma port_res_ok s p : port_res s = Ok p <-> port_suffix (suffix_of s) (option_map (fun n => (Colon, n)) p).
Proof.
  rewrite suffix_iff. destruct s as [s|]; cbn [port_res].
  - split.
    + destruct (number 0 65535 s) as [n| | |] eqn:N; try discriminate. intros [= <-]. exists n. split; reflexivity.
    + intros (n & -> & X). destruct p as [p|]; [|discriminate]. injection X as ->. reflexivity.
  - destruct p as [p|]; cbn; split; congruence.
Qed.
Lemma binds_eq E h p s : port_res s = Ok p -> map (fun a => Bind a None false false (match p with None => true | Some _ => false end))
  (hosts E h (htons (match p with None => 0 | Some n => n end))) = binds_of E h (option_map (fun n => (Colon, n)) p) None None.
Proof.
  intros H. apply port_res_ok in H. unfold binds_of. destruct p as [n|]; cbn [option_map]; [|reflexivity].
  destruct H as (_ & L & _). rewrite htons_is by exact L. reflexivity.
Qed.
Lemma suffix_colon t p : port_suffix t p -> exists s q, t = suffix_of s /\ p = option_map (fun n => (Colon, n)) q /\ port_res s = Ok q.
Proof.
  intros H. destruct (suffix_text t p H) as (s & -> & _). exists s. pose proof H as X. apply suffix_iff in X. destruct s as [s|].
  - destruct X as (n & N & ->). exists (Some n). repeat split. cbn. rewrite N. reflexivity.
  - subst p. exists None. repeat split.
Qed.

Theorem bind_iff E t c c' : option_bind E t c = Ok c' <-> exists h p, bind_arg E t h p /\ c' = fold_left app_bind (binds_of E h p None None) c.
Proof.
  split.
  - unfold option_bind. destruct (bind_parts t) as [[a s]| | |] eqn:P; try discriminate. cbn [bind]. apply parts_sound in P.
    change (match s with Some p => do n <- number 0 65535 p; Ok (Some n) | None => Ok None end) with (port_res s).
    destruct (port_res s) as [p| | |] eqn:Q; try discriminate. cbn [bind]. pose proof (proj1 (port_res_ok s p) Q) as SX.
    destruct (bracket t) eqn:BR.
    + destruct P as [-> N]. pose proof (split_first_iff a 37) as F. destruct (split_first a 37) as [[x y]|].
      * destruct (e_pton6 E x); [|discriminate]. destruct (_ && _); discriminate.
      * destruct (e_pton6 E a) as [ip|] eqn:PT; [|discriminate].
        change (BAddr _) with (host_of (H6 ip) (htons match p with Some n => n | None => 0 end)). rewrite run_bind, (binds_eq E (H6 ip) p s Q). intros [= <-].
        exists (H6 ip), (option_map (fun n => (Colon, n)) p). split; [|reflexivity]. apply ba_6; assumption.
    + destruct P as [-> N]. destruct (HandshakeProofs2.bytes_eqb_spec a (w "any")) as [->|NA].
      * change (BAny ?x) with (host_of HAny x). rewrite run_bind, (binds_eq E HAny p s Q). intros [= <-]. exists HAny, (option_map (fun n => (Colon, n)) p). split; [|reflexivity]. apply ba_any. exact SX.
      * destruct (e_pton4 E a) as [ip|] eqn:PT; [|discriminate].
        change (BAddr _) with (host_of (H4 ip) (htons match p with Some n => n | None => 0 end)). rewrite run_bind, (binds_eq E (H4 ip) p s Q). intros [= <-].
        exists (H4 ip), (option_map (fun n => (Colon, n)) p). split; [|reflexivity]. apply ba_4; try assumption; [apply N.eqb_neq; exact BR|].
        destruct s as [s|]; cbn in Q; [destruct (number 0 65535 s); try discriminate; injection Q as <-; discriminate|injection Q as <-; intros _; exact N].
  - intros (h & p & A & ->). unfold option_bind. destruct A as [t p S|a ip t p BR NA NC PT S|a ip t p NP PT S];
      destruct (suffix_colon t p S) as (s & q & -> & -> & Q); pose proof (suffix_text _ _ S) as (s' & X & N).
    + assert (s' = s) by (destruct s, s'; cbn in X; congruence). subst s'.
      destruct (parts_4 (w "any") s) as [-> ->]; [destruct s; cbn; discriminate| |].
      { destruct s; [exact (proj1 N)|]. cbn. intros [Y|[Y|[Y|[]]]]; discriminate. }
      cbn [bind]. change (match s with Some p => do n <- number 0 65535 p; Ok (Some n) | None => Ok None end) with (port_res s). rewrite Q. cbn [bind].
      change (bytes_eqb (w "any") (w "any")) with true. cbv iota. change (BAny ?x) with (host_of HAny x). rewrite run_bind, (binds_eq E HAny q s Q). reflexivity.
    + assert (s' = s) by (destruct s, s'; cbn in X; congruence). subst s'.
      destruct (parts_4 a s BR) as [P1 P2].
      { destruct s; [exact (proj1 N)|]. apply NC. exact N. }
      replace (bind_parts _) with (Ok (a, s)) by (symmetry; exact P1). replace (bracket _) with false by (symmetry; exact P2).
      cbn [bind]. change (match s with Some p => do n <- number 0 65535 p; Ok (Some n) | None => Ok None end) with (port_res s). rewrite Q. cbn [bind].
      destruct (HandshakeProofs2.bytes_eqb_spec a (w "any")) as [Y|_]; [destruct (NA Y)|]. rewrite PT.
      change (BAddr _) with (host_of (H4 ip) (htons match q with Some n => n | None => 0 end)). rewrite run_bind, (binds_eq E (H4 ip) q s Q). reflexivity.
    + assert (s' = s) by (destruct s, s'; cbn in X; congruence). subst s'.
      destruct (parts_6 a s) as [P1 P2].
      { destruct s; [|exact (fun F => F)]. cbn. intros [Y|Y]; [discriminate|exact (proj2 N Y)]. }
      replace (bind_parts _) with (Ok (a, s)) by (symmetry; exact P1). replace (bracket _) with true by (symmetry; exact P2).
      cbn [bind]. change (match s with Some p => do n <- number 0 65535 p; Ok (Some n) | None => Ok None end) with (port_res s). rewrite Q. cbn [bind].
      rw (split_first_none a 37 NP). cbv iota beta. rewrite PT.
      change (BAddr _) with (host_of (H6 ip) (htons match q with Some n => n | None => 0 end)). rewrite run_bind, (binds_eq E (H6 ip) q s Q). reflexivity.
Qed.
Theorem bind_ub E t c : option_bind E t c = UB <-> scoped_arg E t.
Proof.
  split.
  - unfold option_bind. destruct (bind_parts t) as [[a s]| | |] eqn:P; try discriminate.
    2: { unfold bind_parts in P. destruct (bracket t); destruct (strrchr t _) as [[x [|y z]]|]; try discriminate. destruct (y =? 58); discriminate. }
    cbn [bind]. apply parts_sound in P.
    change (match s with Some p => do n <- number 0 65535 p; Ok (Some n) | None => Ok None end) with (port_res s).
    destruct (port_res s) as [p| | |] eqn:Q; try discriminate.
    2: { unfold port_res in Q. destruct s as [s|]; [|discriminate]. destruct (number_fatal 0 65535 s) as [N|[n N]]; rewrite N in Q; discriminate. }
    cbn [bind]. pose proof (proj1 (port_res_ok s p) Q) as SX.
    destruct (bracket t) eqn:BR.
    + destruct P as [-> N]. pose proof (split_first_iff a 37) as F. destruct (split_first a 37) as [[x y]|].
      * destruct F as [-> F]. destruct (e_pton6 E x) as [ip|] eqn:PT; [|discriminate].
        destruct (b_bindtodevice (e_build E)) eqn:BD; [|destruct (is_linklocal ip) eqn:LL]; cbn [negb andb is_v6_ll]; rewrite ?LL; cbn [negb]; intros H; try discriminate.
        -- exists x, y, (suffix_of s), ip. eexists. split; [rewrite <- !app_assoc; reflexivity|]. split; [exact F|]. split; [exact PT|]. split; [exact SX|]. left. exact BD.
        -- exists x, y, (suffix_of s), ip. eexists. split; [rewrite <- !app_assoc; reflexivity|]. split; [exact F|]. split; [exact PT|]. split; [exact SX|]. right. exact LL.
      * destruct (e_pton6 E a) as [ip|]; [|discriminate]. change (BAddr _) with (host_of (H6 ip) (htons match p with Some n => n | None => 0 end)). rewrite run_bind. discriminate.
    + destruct (bytes_eqb a (w "any")).
      * change (BAny ?x) with (host_of HAny x). rewrite run_bind. discriminate.
      * destruct (e_pton4 E a) as [ip|]; [|discriminate]. change (BAddr _) with (host_of (H4 ip) (htons match p with Some n => n | None => 0 end)). rewrite run_bind. discriminate.
  - intros (a & i & t' & ip & p & -> & F & PT & S & D). destruct (suffix_colon t' p S) as (s & q & -> & -> & Q). pose proof (suffix_text _ _ S) as (s' & X & N).
    assert (s' = s) by (destruct s, s'; cbn in X; congruence). subst s'. unfold option_bind.
    assert (EQ : [91] ++ a ++ [37] ++ i ++ [93] ++ suffix_of s = [91] ++ (a ++ [37] ++ i) ++ [93] ++ suffix_of s) by (rewrite <- !app_assoc; reflexivity). rewrite EQ.
    destruct (parts_6 (a ++ [37] ++ i) s) as [P1 P2].
    { destruct s; [|exact (fun F => F)]. cbn. intros [Y|Y]; [discriminate|exact (proj2 N Y)]. }
    replace (bind_parts _) with (Ok (a ++ [37] ++ i, s)) by (symmetry; exact P1). replace (bracket _) with true by (symmetry; exact P2).
    cbn [bind]. change (match s with Some p => do n <- number 0 65535 p; Ok (Some n) | None => Ok None end) with (port_res s). rewrite Q. cbn [bind].
    rw (split_first_ok a 37 i F). cbv iota beta. rewrite PT. cbn [is_v6_ll].
    destruct D as [-> | ->]; [reflexivity|]. rewrite andb_false_r. reflexivity.
Qed.
Lemma bind_no_bug E t c : option_bind E t c <> Bug.
Proof.
  unfold option_bind. destruct (bind_parts t) as [[a s]| | |] eqn:P; try discriminate.
  2: { unfold bind_parts in P. destruct (bracket t); destruct (strrchr t _) as [[x [|y z]]|]; try discriminate. destruct (y =? 58); discriminate. }
  cbn [bind]. destruct s as [s|]; [destruct (number_fatal 0 65535 s) as [-> |[n ->]]; [discriminate|]|]; cbn [bind]; destruct (bracket t).
  all: try (destruct (split_first a 37) as [[x y]|]; [destruct (e_pton6 E x) as [ip|]; [destruct (_ && _); discriminate|discriminate]|]).
  all: try (destruct (e_pton6 E a) as [ip|]; [change (BAddr (AInet6 ip ?x _ _)) with (host_of (H6 ip) x); rewrite run_bind; discriminate|discriminate]).
  all: destruct (bytes_eqb a (w "any")); [change (BAny ?x) with (host_of HAny x); rewrite run_bind; discriminate|].
  all: destruct (e_pton4 E a) as [ip|]; [change (BAddr (AInet ip ?x)) with (host_of (H4 ip) x); rewrite run_bind; discriminate|discriminate].
Qed.
