(** Proofs about the status socket *)
From Coq Require Import String.
From Verif Require Import Base BaseLemmas BufferModel NonceModel MethodModel HandshakeModel AddrModel AddrSpec FormatModel FormatSpec FormatProofs NameModel HexModel HexSpec HexProofs
  LogModel LogSpec LogProofs NodeModel NodeSteps NodeWf NodeInv NodeFun NodeSpec NodeProofs NodeProofs2 NodeProofs3 StatusModel StatusSpec.
From Coq Require DecimalFacts DecimalN.
From Coq Require Import Lia ZifyBool ZifyNat ZifyN.
Local Open Scope Z_scope.

(** ** Strings in arrays *)
Lemma c_string_app : forall s r, FormatSpec.string s -> c_string (s ++ 0%N :: r) = Ok s.
Proof.
  intros s r. induction s as [|b s IH]; intros H; [reflexivity|]. cbn [app c_string]. destruct (N.eqb_spec b 0) as [->|Hb]; [exfalso; apply H; left; reflexivity|].
  rewrite IH by (intros X; apply H; right; exact X). reflexivity.
Qed.
Lemma array_length : forall size junk, List.length (array size junk) = size.
Proof. intros size junk. unfold array. rewrite firstn_length, app_length, repeat_length. lia. Qed.
Lemma print_fits : forall size junk s, FormatSpec.string s -> (List.length s < size)%nat ->
  exists mem, vsnprintf (array size junk) 0 size (Text s) = Ok (mem, Some (List.length s)) /\ c_string mem = Ok s.
Proof.
  intros size junk s Hs Hl. unfold vsnprintf. replace (Nat.eqb size 0) with false by (symmetry; apply Nat.eqb_neq; lia).
  rewrite firstn_all2 by lia. rewrite write_ok by (rewrite app_length, array_length; cbn [List.length]; lia). cbn [bind]. eexists. split; [reflexivity|].
  cbn [firstn app]. rewrite <- app_assoc. apply c_string_app. exact Hs.
Qed.
Lemma safe_fits : forall size junk s, FormatSpec.string s -> (List.length s < size)%nat ->
  exists mem, snprintf_safe (array size junk) 0 size (Text s) = Ok (mem, List.length s) /\ c_string mem = Ok s.
Proof.
  intros size junk s Hs Hl. destruct (print_fits size junk s Hs Hl) as (mem & E & C). exists mem. split; [|exact C].
  unfold snprintf_safe. rewrite E. cbn [bind fst snd]. rewrite Nat.min_l by lia. reflexivity.
Qed.

(** ** Addresses *)
Lemma digits_length : forall d, List.length (digits d) = Decimal.nb_digits d.
Proof. intros d. induction d; cbn [Decimal.nb_digits digits List.length]; try rewrite IHd; reflexivity. Qed.
Lemma of_uint_acc_ge : forall d acc, (N.pos acc * 10 ^ N.of_nat (Decimal.nb_digits d) <= N.pos (Pos.of_uint_acc d acc))%N.
Proof.
  intros d. induction d; intros acc; cbn [Decimal.nb_digits Pos.of_uint_acc]; [cbn; lia|..];
    rewrite Nat2N.inj_succ, N.pow_succ_r';
    match goal with |- context [Pos.of_uint_acc d ?a] => specialize (IHd a) end;
    pose proof (N.pow_nonzero 10 (N.of_nat (Decimal.nb_digits d)) ltac:(discriminate)); nia.
Qed.
Lemma of_uint_ge : forall d, Decimal.unorm d = d -> (d = Decimal.D0 Decimal.Nil \/ 10 ^ N.of_nat (Decimal.nb_digits d - 1) <= N.of_uint d)%N.
Proof.
  intros d H. destruct d; try (right; cbn [Decimal.nb_digits N.of_uint Pos.of_uint]; rewrite Nat.sub_succ, Nat.sub_0_r;
    match goal with |- (_ <= N.pos (Pos.of_uint_acc ?d ?a))%N => pose proof (of_uint_acc_ge d a) end; nia).
  - discriminate.
  - left. change (Decimal.unorm (Decimal.D0 d)) with (match Decimal.nzhead d with Decimal.Nil => Decimal.D0 Decimal.Nil | d' => d' end) in H.
    pose proof (DecimalFacts.nzhead_nonzero d) as X. destruct (Decimal.nzhead d) eqn:E; try discriminate; [symmetry; exact H|]. exfalso. eapply X. reflexivity.
Qed.
Lemma dec_small : forall n, (n < 65536)%N -> (List.length (dec n) <= 5)%nat.
Proof.
  intros n Hn. unfold dec. rewrite digits_length. pose proof (DecimalN.Unsigned.of_to n) as E.
  assert (U : Decimal.unorm (N.to_uint n) = N.to_uint n) by (rewrite <- DecimalN.Unsigned.to_of, E; reflexivity).
  destruct (of_uint_ge _ U) as [-> | H]; [cbn; lia|]. rewrite E in H.
  destruct (Nat.leb_spec (Decimal.nb_digits (N.to_uint n)) 5) as [L|L]; [exact L|]. exfalso.
  assert (10 ^ 5 <= 10 ^ N.of_nat (Decimal.nb_digits (N.to_uint n) - 1))%N by (apply N.pow_le_mono_r; lia). lia.
Qed.
Lemma dec_string : forall n, FormatSpec.string (dec n).
Proof. intros n H. exact (dec_no n 0 ltac:(lia) H). Qed.
Lemma port_small : forall p, List.length p = 2%nat -> wf_bytes p -> (be_val p < 65536)%N.
Proof.
  intros p H W. destruct p as [|a [|b [|]]]; try discriminate. inversion W as [|? ? Ha W1]. inversion W1 as [|? ? Hb _]. unfold is_byte in *. cbn. lia.
Qed.

Lemma str_app2 : forall a b : bytes, FormatSpec.string a -> FormatSpec.string b -> FormatSpec.string (a ++ b).
Proof. intros a b A B X. apply in_app_or in X. destruct X; auto. Qed.
Lemma str_cons : forall b (s : bytes), b <> 0%N -> FormatSpec.string s -> FormatSpec.string (b :: s).
Proof. intros b s A B [X|X]; auto. Qed.
Lemma str_nil : FormatSpec.string [].
Proof. intros []. Qed.

Lemma address_shown : forall x junk a, status_lib (x_lib x) -> port_ok a ->
  exists mem z, snprint_peer_address (array 72 junk) 0 72 (addr_of (x_lib x) a []) None false false None = Ok (mem, z) /\
    c_string mem = Ok (spec_addr (x_lib x) false None a [] true).
Proof.
  intros x junk a (L4 & L6 & LI) Hp. destruct a as [|ip port|ip port fl sc|f]; cbn [addr_of snprint_peer_address spec_addr port_ok] in *.
  - destruct (print_fits 72 junk str_any) as (mem & E & C); [intros [X|[X|[X|[]]]]; discriminate | cbn; lia|].
    cbn [render]. rewrite E. cbn [bind fst snd]. eexists _, _. split; [reflexivity|]. exact C.
  - destruct (L4 ip) as (s & E & Hs & Hl). rewrite E. destruct Hp as [Hp1 Hp2].
    pose proof (dec_small _ (port_small _ Hp1 Hp2)) as Hd.
    destruct (safe_fits 72 junk (s ++ [58%N] ++ dec (be_val port))) as (mem & E1 & C).
    + apply str_app2; [exact Hs|]. apply str_cons; [discriminate|]. apply dec_string.
    + rewrite !app_length. cbn [List.length]. unfold byte in *. lia.
    + cbn [negb andb render]. rewrite E1. cbn [bind fst snd]. eexists _, _. split; [reflexivity|]. exact C.
  - destruct (L6 ip) as (s & E & Hs & Hl). rewrite E. destruct Hp as [Hp1 Hp2].
    pose proof (dec_small _ (port_small _ Hp1 Hp2)) as Hd. cbn [negb andb render].
    assert (X : forall i, (if is_linklocal ip then l_ifname (x_lib x) sc else None) = Some i -> FormatSpec.string i /\ (List.length i <= 15)%nat)
      by (intros i; destruct (is_linklocal ip); [apply LI | discriminate]).
    destruct (if is_linklocal ip then l_ifname (x_lib x) sc else None) as [i|].
    + destruct (X i eq_refl) as [Hi1 Hi2].
      destruct (safe_fits 72 junk ([91%N] ++ s ++ [37%N] ++ i ++ [93%N; 58%N] ++ dec (be_val port))) as (mem & E1 & C).
      * apply str_cons; [discriminate|]. apply str_app2; [exact Hs|]. apply str_cons; [discriminate|]. apply str_app2; [exact Hi1|].
        apply str_cons; [discriminate|]. apply str_cons; [discriminate|]. apply dec_string.
      * rewrite !app_length. cbn [List.length]. unfold byte in *. lia.
      * rewrite E1. cbn [bind fst snd]. eexists _, _. split; [reflexivity|]. rewrite C. cbn [str app]. rewrite <- !app_assoc. reflexivity.
    + destruct (safe_fits 72 junk ([91%N] ++ s ++ [93%N; 58%N] ++ dec (be_val port))) as (mem & E1 & C).
      * apply str_cons; [discriminate|]. apply str_app2; [exact Hs|].
        apply str_cons; [discriminate|]. apply str_cons; [discriminate|]. apply dec_string.
      * rewrite !app_length. cbn [List.length]. unfold byte in *. lia.
      * rewrite E1. cbn [bind fst snd]. eexists _, _. split; [reflexivity|]. rewrite C. reflexivity.
  - destruct Hp.
Qed.

(** ** Objects *)
Lemma beqb_spec : forall a b, beqb a b = true <-> a = b.
Proof. intros a b. unfold beqb. destruct (list_eq_dec N.eq_dec a b); split; congruence. Qed.
Lemma obj_add_new : forall o k v, ~ In k (map fst o) -> obj_add o k v = o ++ [(k, v)].
Proof.
  intros o k v H. unfold obj_add. destruct (existsb _ o) eqn:E; [|reflexivity]. exfalso. apply H. apply existsb_exists in E. destruct E as (f & Hf & E).
  apply beqb_spec in E. subst k. apply in_map. exact Hf.
Qed.
Ltac notin := let H := fresh in intros H; cbn [map fst In app] in H; repeat (destruct H as [H|H]; [vm_compute in H; discriminate|]); exact H.
Ltac objs := repeat (rewrite obj_add_new by notin); cbn [app].
Ltac is_object := eexists; split; [reflexivity|]; split;
  [cbn [map fst]; repeat (constructor; [notin|]); constructor | intros ?; cbn [map fst In app]; tauto].
Ltac is_field := eexists; split; [reflexivity|]; cbn [In]; tauto.

Lemma int64_small : forall n, (n < 2 ^ 63)%N -> int64 n = Z.of_N n.
Proof.
  intros n H. unfold int64. rewrite Z.mod_small by lia. replace (Z.of_N n <? 2 ^ 63) with true by (symmetry; apply Z.ltb_lt; lia). reflexivity.
Qed.
Lemma counter_shown : forall s t, shows_counter (dump_stat s t) (s t).
Proof.
  intros s t. unfold dump_stat. objs. split; [is_object|]. split; intros H; rewrite (int64_small _ H); is_field.
Qed.
Lemma counters_shown : forall s, shows_counters (dump_stats s) s.
Proof.
  intros s. unfold dump_stats. objs. split; [is_object|]. intros name t H. cbn [In] in H.
  repeat (destruct H as [H|H]; [injection H as <- <-; eexists; split; [is_field | apply counter_shown]|]). destruct H.
Qed.
