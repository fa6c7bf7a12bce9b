(** * Netlink messages: the bytes of requests *)

From Coq Require Import List NArith ZArith Bool Lia ZifyBool ZifyNat ZifyN.
From Verif Require Import NlModel NlSpec.
Import ListNotations.
Import NlSpec.
Local Open Scope Z_scope.
Ltac Zify.zify_post_hook ::= Z.to_euclidean_division_equations.

Lemma size_app : forall a b, size (a ++ b) = size a + size b.
Proof. intros. unfold size. rewrite app_length. lia. Qed.
Lemma size_nonneg : forall a, 0 <= size a.
Proof. intros. unfold size. lia. Qed.
Lemma len_size : forall l, len l = size l.
Proof. reflexivity. Qed.
Lemma size_repeat : forall x n, size (repeat x n) = Z.of_nat n.
Proof. intros. unfold size. now rewrite repeat_length. Qed.

Lemma num_length : forall le k z, length (num le k z) = k.
Proof.
  intros. unfold num. destruct le; [| rewrite rev_length]; now rewrite map_length, seq_length.
Qed.
Lemma num_size : forall le k z, size (num le k z) = Z.of_nat k.
Proof. intros. unfold size. now rewrite num_length. Qed.

Lemma le_bytes_digits : forall k z, le_bytes k z = map (digit z) (seq 0 k).
Proof.
  induction k as [| k IH]; intros z; [reflexivity |].
  cbn [le_bytes]. change (seq 0 (S k)) with (0%nat :: seq 1 k). cbn [map]. f_equal.
  - unfold digit. cbn. now rewrite Z.div_1_r.
  - rewrite IH, <- seq_shift, map_map. apply map_ext. intros i. unfold digit. do 2 f_equal.
    rewrite Nat2Z.inj_succ, Z.pow_succ_r by lia. rewrite Z.div_div by lia. reflexivity.
Qed.
Lemma host_num : forall le k z, host le (le_bytes k z) = num le k z.
Proof. intros. unfold host, num. now rewrite le_bytes_digits. Qed.

Lemma le_value_bytes : forall k z, le_value (le_bytes k z) = z mod 256 ^ Z.of_nat k.
Proof.
  induction k as [| k IH]; intros z; cbn [le_bytes le_value].
  - cbn. now rewrite Z.mod_1_r.
  - rewrite IH, Nat2Z.inj_succ, Z.pow_succ_r by lia.
    rewrite Z2N.id by (apply Z.mod_pos_bound; lia).
    rewrite Z.rem_mul_r by lia. reflexivity.
Qed.
Lemma le_value_num : forall le k z, le_value (host le (num le k z)) = z mod 256 ^ Z.of_nat k.
Proof.
  intros. rewrite <- host_num, <- le_value_bytes. f_equal.
  unfold host. destruct le; [reflexivity | apply rev_involutive].
Qed.

(** ** Memory *)

Lemma read_mid : forall a d c p n, p = size a -> n = size d -> read (a ++ d ++ c) p n = Done d.
Proof.
  intros a d c p n -> ->. unfold read.
  replace ((0 <=? size a) && (0 <=? size d) && (size a + size d <=? size (a ++ d ++ c))) with true
    by (rewrite !size_app; pose proof (size_nonneg a); pose proof (size_nonneg d); pose proof (size_nonneg c); lia).
  unfold size. rewrite !Nat2Z.id. f_equal.
  rewrite skipn_app, Nat.sub_diag, skipn_all. cbn [app skipn].
  rewrite firstn_app, Nat.sub_diag, firstn_all. cbn [firstn]. apply app_nil_r.
Qed.
Lemma write_mid : forall a d c p d', p = size a -> size d = size d' -> write (a ++ d ++ c) p d' = Done (a ++ d' ++ c).
Proof.
  intros a d c p d' -> E. unfold write.
  replace ((0 <=? size a) && (size a + size d' <=? size (a ++ d ++ c))) with true
    by (rewrite !size_app; pose proof (size_nonneg a); pose proof (size_nonneg d); pose proof (size_nonneg c); lia).
  f_equal. rewrite <- E. unfold size. rewrite Nat2Z.id.
  replace (Z.to_nat (Z.of_nat (length a) + Z.of_nat (length d))) with (length a + length d)%nat by lia.
  rewrite firstn_app, Nat.sub_diag, firstn_all. cbn [firstn]. rewrite app_nil_r. f_equal. f_equal.
  rewrite app_assoc, <- app_length, skipn_app, Nat.sub_diag, skipn_all. reflexivity.
Qed.
Lemma read_num_mid : forall le a k z c p,
  p = size a -> read_num le (Z.of_nat k) (a ++ num le k z ++ c) p = Done (z mod 256 ^ Z.of_nat k).
Proof.
  intros. unfold read_num. rewrite read_mid; [| assumption | now rewrite num_size].
  cbn [bind]. now rewrite le_value_num.
Qed.
Lemma write_num_mid : forall le a d c p k z,
  p = size a -> size d = Z.of_nat k -> write_num le (Z.of_nat k) (a ++ d ++ c) p z = Done (a ++ num le k z ++ c).
Proof.
  intros. unfold write_num. rewrite Nat2Z.id, host_num. apply write_mid; [assumption |].
  now rewrite num_size.
Qed.

Lemma num_mod : forall le k z, num le k (z mod 256 ^ Z.of_nat k) = num le k z.
Proof.
  intros. rewrite <- !host_num. f_equal. revert z. induction k as [| k IH]; intros z; [reflexivity |].
  cbn [le_bytes]. rewrite Nat2Z.inj_succ, Z.pow_succ_r by lia.
  rewrite Z.rem_mul_r by lia. f_equal.
  - f_equal. rewrite Z.mul_comm, Z.mod_add by lia. now rewrite Z.mod_mod by lia.
  - rewrite <- (IH (z / 256)). f_equal.
    rewrite Z.mul_comm, Z.div_add by lia. rewrite (Z.div_small (z mod 256)) by (apply Z.mod_pos_bound; lia). reflexivity.
Qed.

(** ** Building *)

Definition buf (le : bool) (L : Z) (bd : list byte) (n : nat) : list byte := num le 4 L ++ bd ++ repeat 0%N n.

Lemma repeat_split : forall (x : byte) n m, (m <= n)%nat -> repeat x n = repeat x m ++ repeat x (n - m).
Proof. intros. rewrite <- repeat_app. f_equal. lia. Qed.

Lemma get_len_buf : forall le L bd n, 0 <= L < 2 ^ 32 -> get_len le (buf le L bd n) 0 = Done L.
Proof.
  intros. unfold get_len, buf. change 4 with (Z.of_nat 4).
  change (num le 4 L ++ bd ++ repeat 0%N n) with ([] ++ num le 4 L ++ bd ++ repeat 0%N n).
  rewrite read_num_mid by reflexivity. f_equal. apply Z.mod_small. exact H.
Qed.
Lemma set_len_buf : forall le L L' bd n, 0 <= L' < 2 ^ 32 -> set_len le (buf le L bd n) L' = Done (buf le L' bd n).
Proof.
  intros. unfold set_len, u32. rewrite Z.mod_small by assumption. unfold buf.
  change (num le 4 L ++ bd ++ repeat 0%N n) with ([] ++ num le 4 L ++ bd ++ repeat 0%N n).
  change 4 with (Z.of_nat 4). rewrite write_num_mid; [reflexivity | reflexivity |]. now rewrite num_size.
Qed.

Lemma pad_length : forall d, Z.of_nat (length (pad d)) = align (4 + size d) - 4 - size d.
Proof.
  intros. unfold pad. rewrite repeat_length, Z2Nat.id by (apply Z.mod_pos_bound; lia).
  unfold len, align, size. generalize (Z.of_nat (length d)). intros x. lia.
Qed.

Lemma attr_put_buf : forall le L bd n t d,
  len bd = L - 4 -> L mod 4 = 0 -> 4 <= L < 2 ^ 31 -> len d + 4 < 2 ^ 16 -> align (4 + size d) <= Z.of_nat n ->
  attr_put le (buf le L bd n) t d =
    Done (buf le (L + align (4 + size d)) (bd ++ attr_bytes le (t, d)) (n - Z.to_nat (align (4 + size d)))).
Proof.
  intros le L bd n t d Hb H4 HL Hd Hn. rewrite len_size in *.
  pose proof (size_nonneg d) as Hs.
  assert (Ha : 4 + size d <= align (4 + size d) < 4 + size d + 4) by (unfold align; lia).
  unfold attr_put. rewrite get_len_buf by lia. cbn [bind].
  assert (EL : align32 L = L) by (unfold align32, u32; rewrite (Z.mod_small (L + 3)) by lia; lia).
  rewrite EL. change (align 4) with 4.
  rewrite (Z.mod_small (4 + size d)) by lia.
  (* the type *)
  assert (E0 : buf le L bd n = (num le 4 L ++ bd ++ repeat 0%N 2) ++ repeat 0%N 2 ++ repeat 0%N (n - 4)).
  { unfold buf. rewrite (repeat_split 0%N n 4) by lia. change (repeat 0%N 4) with (repeat 0%N 2 ++ repeat 0%N 2).
    now rewrite <- !app_assoc. }
  rewrite E0. change 2 with (Z.of_nat 2) at 1. rewrite write_num_mid; cycle 1.
  { rewrite !size_app, num_size, size_repeat. lia. } { reflexivity. }
  cbn [bind].
  (* the length *)
  rewrite <- !app_assoc. rewrite (app_assoc (num le 4 L)).
  change 2 with (Z.of_nat 2) at 1. rewrite write_num_mid; cycle 1.
  { rewrite !size_app, num_size. lia. } { reflexivity. }
  cbn [bind].
  (* the data *)
  rewrite (repeat_split 0%N (n - 4) (length d)) by (unfold size in *; lia).
  replace ((num le 4 L ++ bd) ++ num le 2 (4 + size d) ++ num le 2 t ++ repeat 0%N (length d) ++ repeat 0%N (n - 4 - length d))
    with (((num le 4 L ++ bd) ++ num le 2 (4 + size d) ++ num le 2 t) ++ repeat 0%N (length d) ++ repeat 0%N (n - 4 - length d))
    by (now rewrite <- !app_assoc).
  rewrite write_mid; cycle 1.
  { unfold ATTR_HDRLEN. rewrite !size_app, !num_size. lia. } { now rewrite size_repeat. }
  cbn [bind].
  assert (E1 : ((num le 4 L ++ bd) ++ num le 2 (4 + size d) ++ num le 2 t) ++ d ++ repeat 0%N (n - 4 - length d)
               = buf le L (bd ++ attr_bytes le (t, d)) (n - Z.to_nat (align (4 + size d)))).
  { unfold buf, attr_bytes. cbn [fst snd]. change (len d) with (size d). rewrite <- !app_assoc. do 5 f_equal.
    pose proof (pad_length d) as P. unfold pad in *. rewrite repeat_length in P.
    rewrite <- repeat_app. f_equal. unfold size in *. lia. }
  rewrite E1, get_len_buf by lia. cbn [bind]. rewrite set_len_buf; [reflexivity |].
  lia.
Qed.

Lemma put_header_buf : forall le n, (16 <= n)%nat -> put_header le (repeat 0%N n) = Done (buf le 16 (repeat 0%N 12) (n - 16)).
Proof.
  intros le n Hn. unfold put_header. rewrite (repeat_split 0%N n 16) by assumption.
  change (repeat 0%N 16 ++ repeat 0%N (n - 16)) with ([] ++ repeat 0%N 16 ++ repeat 0%N (n - 16)) at 1.
  rewrite write_mid by reflexivity. cbn [bind].
  assert (E : [] ++ repeat 0%N 16 ++ repeat 0%N (n - 16) = buf le 0 (repeat 0%N 12) (n - 16)).
  { unfold buf. replace (num le 4 0) with (repeat 0%N 4) by (now destruct le). reflexivity. }
  rewrite E. apply set_len_buf. unfold HDRLEN. lia.
Qed.

(** The start of a request *)
Definition start_body (le : bool) (type cmd version : Z) : list byte :=
  num le 2 type ++ num le 2 5 ++ repeat 0%N 8 ++ [Z.to_N cmd; Z.to_N version; 0%N; 0%N].

Lemma request_start_buf : forall le n type cmd version, (20 <= n)%nat ->
  request_start le (repeat 0%N n) type cmd version = Done (buf le 20 (start_body le type cmd version) (n - 20)).
Proof.
  intros le n type cmd version Hn. unfold request_start. rewrite put_header_buf by lia. cbn [bind].
  unfold buf at 1.
  replace (num le 4 16 ++ repeat 0%N 12 ++ repeat 0%N (n - 16))
    with (num le 4 16 ++ repeat 0%N 2 ++ (repeat 0%N 10 ++ repeat 0%N (n - 16))) by reflexivity.
  change 2 with (Z.of_nat 2) at 1. rewrite write_num_mid; cycle 1. { now rewrite num_size. } { reflexivity. }
  cbn [bind].
  replace (num le 4 16 ++ num le 2 type ++ repeat 0%N 10 ++ repeat 0%N (n - 16))
    with ((num le 4 16 ++ num le 2 type) ++ repeat 0%N 2 ++ (repeat 0%N 8 ++ repeat 0%N (n - 16)))
    by (now rewrite <- app_assoc).
  change 2 with (Z.of_nat 2) at 1. rewrite write_num_mid; cycle 1. { now rewrite size_app, !num_size. } { reflexivity. }
  cbn [bind]. unfold put_extra_header.
  assert (E : (num le 4 16 ++ num le 2 type) ++ num le 2 5 ++ repeat 0%N 8 ++ repeat 0%N (n - 16)
              = buf le 16 (num le 2 type ++ num le 2 5 ++ repeat 0%N 8) (n - 16)).
  { unfold buf. now rewrite <- !app_assoc. }
  rewrite E, get_len_buf by lia. cbn [bind]. change (align 4) with 4. rewrite set_len_buf by lia. cbn [bind].
  change (16 + 4) with 20. change (Z.to_nat 4) with 4%nat. unfold buf at 1.
  rewrite (repeat_split 0%N (n - 16) 4) by lia. rewrite app_assoc.
  rewrite write_mid; cycle 1. { rewrite !size_app, !num_size, size_repeat. reflexivity. } { reflexivity. }
  cbn [bind].
  replace ((num le 4 20 ++ num le 2 type ++ num le 2 5 ++ repeat 0%N 8) ++ repeat 0%N 4 ++ repeat 0%N (n - 16 - 4))
    with ((num le 4 20 ++ num le 2 type ++ num le 2 5 ++ repeat 0%N 8) ++ [0%N] ++ ([0; 0; 0]%N ++ repeat 0%N (n - 16 - 4)))
    by reflexivity.
  rewrite write_mid; cycle 1. { rewrite !size_app, !num_size, size_repeat. reflexivity. } { reflexivity. }
  cbn [bind].
  replace ((num le 4 20 ++ num le 2 type ++ num le 2 5 ++ repeat 0%N 8) ++ [Z.to_N cmd] ++ [0; 0; 0]%N ++ repeat 0%N (n - 16 - 4))
    with ((num le 4 20 ++ num le 2 type ++ num le 2 5 ++ repeat 0%N 8 ++ [Z.to_N cmd]) ++ [0%N] ++ ([0; 0]%N ++ repeat 0%N (n - 16 - 4)))
    by (rewrite <- !app_assoc; reflexivity).
  rewrite write_mid; cycle 1. { rewrite !size_app, !num_size, size_repeat. reflexivity. } { reflexivity. }
  f_equal. unfold buf, start_body. rewrite <- !app_assoc. cbn [app]. do 6 f_equal.
  replace (n - 16 - 4)%nat with (n - 20)%nat by lia. reflexivity.
Qed.

(** Any number of attributes *)
Fixpoint put_all (le : bool) (b : list byte) (l : list (Z * list byte)) : out (list byte) :=
  match l with [] => Done b | a :: l => b <- attr_put le b (fst a) (snd a) ;; put_all le b l end.

Lemma put_all_app : forall le l l' b, put_all le b (l ++ l') = (b <- put_all le b l ;; put_all le b l').
Proof.
  intros le l l'. induction l as [| a l IH]; intros b; cbn [put_all app bind]; [reflexivity |].
  destruct (attr_put le b (fst a) (snd a)); cbn [bind]; auto.
Qed.

Lemma bind_done : forall A (x : out A), (a <- x ;; Done a) = x.
Proof. intros. now destruct x. Qed.
Lemma num1 : forall le z, num le 1 z = [Z.to_N (z mod 256)].
Proof. intros. unfold num, digit. cbn [seq map rev app Z.of_nat]. rewrite Z.pow_0_r, Z.div_1_r. now destruct le. Qed.

Lemma build_put_all : forall le b fam r,
  build le b fam r =
    (b <- request_start le b (kind fam r) (command r) 1 ;; put_all le b (attributes le r)).
Proof.
  intros. destruct r as [| fd id | id name | id | id]; cbn [build kind command attributes];
    match goal with |- bind ?x _ = _ => destruct x as [b1 | | |] end; cbn [bind put_all fst snd app]; try reflexivity;
    unfold attr_put_num, attr_put_strz; rewrite ?host_num, ?num1;
    try change (Z.to_N (3 mod 256)) with 3%N; try change (Z.to_N (0 mod 256)) with 0%N;
    repeat match goal with
    | |- bind ?x _ = _ => destruct x as [?b | | |]; cbn [bind]; try reflexivity
    end;
    try (now rewrite bind_done).
  - rewrite bind_done. unfold u32.
    change (2 ^ 32) with (256 ^ Z.of_nat 4). now rewrite num_mod.
  - destruct name as [s |]; cbn [put_all fst snd]; [| reflexivity]. unfold attr_put_strz. now rewrite bind_done.
Qed.

Fixpoint attrs_size (l : list (Z * list byte)) : Z :=
  match l with [] => 0 | a :: l => align (4 + size (snd a)) + attrs_size l end.
Lemma attrs_size_nonneg : forall l, 0 <= attrs_size l.
Proof.
  induction l as [| a l IH]; cbn [attrs_size]; [lia |]. pose proof (size_nonneg (snd a)). unfold align. lia.
Qed.
Lemma attr_bytes_size : forall le a, size (attr_bytes le a) = align (4 + size (snd a)).
Proof.
  intros. unfold attr_bytes. rewrite !size_app, !num_size. unfold size at 2. rewrite pad_length. lia.
Qed.

Lemma put_all_buf : forall le l L bd n,
  len bd = L - 4 -> L mod 4 = 0 -> 4 <= L -> L + attrs_size l < 2 ^ 31 ->
  Forall (fun a => len (snd a) + 4 < 2 ^ 16) l -> attrs_size l <= Z.of_nat n ->
  put_all le (buf le L bd n) l =
    Done (buf le (L + attrs_size l) (bd ++ concat (map (attr_bytes le) l)) (n - Z.to_nat (attrs_size l))).
Proof.
  intros le l. induction l as [| [t d] l IH]; intros L bd n Hb H4 HL Hl F Hn; cbn [put_all attrs_size map concat fst snd] in *.
  - rewrite app_nil_r, Z.add_0_r. cbn [Z.to_nat]. now rewrite Nat.sub_0_r.
  - apply Forall_cons_iff in F. destruct F as [F1 F2]. cbn [snd] in F1.
    pose proof (attrs_size_nonneg l) as Hp. pose proof (size_nonneg d) as Hd.
    assert (Ha : 4 <= align (4 + size d) /\ align (4 + size d) mod 4 = 0) by (unfold align; lia).
    rewrite attr_put_buf by (assumption || lia). cbn [bind].
    rewrite IH; [| | lia | lia | lia | assumption | lia].
    + f_equal. rewrite <- app_assoc. f_equal; lia.
    + rewrite len_size, size_app, attr_bytes_size. cbn [snd]. rewrite len_size in Hb. lia.
Qed.

Lemma attrs_concat_size : forall le l, size (concat (map (attr_bytes le) l)) = attrs_size l.
Proof.
  induction l as [| a l IH]; cbn [map concat attrs_size]; [reflexivity |].
  now rewrite size_app, attr_bytes_size, IH.
Qed.

Lemma request_attrs : forall le r, name_fits r ->
  Forall (fun a => len (snd a) + 4 < 2 ^ 16) (attributes le r) /\ attrs_size (attributes le r) <= 68.
Proof.
  intros le r Hr. destruct r as [| fd id | id [s |] | id | id]; cbn [attributes app attrs_size snd name_fits] in *;
    (split;
     [repeat (apply Forall_cons || apply Forall_nil); unfold len; cbn [snd]; rewrite ?app_length, ?num_length; cbn [length]; lia
     | unfold size, align; rewrite ?app_length, ?num_length; cbn [length]; lia]).
Qed.

(** The message as [build] leaves it, and the bytes [do_nl] sends *)
Lemma build_buf : forall le fam r n, name_fits r -> (128 <= n)%nat ->
  exists m,
    build le (repeat 0%N n) fam r =
      Done (buf le (20 + attrs_size (attributes le r))
              (start_body le (kind fam r) (command r) 1 ++ concat (map (attr_bytes le) (attributes le r))) m).
Proof.
  intros le fam r n Hr Hn. destruct (request_attrs le r Hr) as [F1 F2].
  rewrite build_put_all, request_start_buf by lia. cbn [bind].
  rewrite put_all_buf; [eexists; reflexivity | | reflexivity | lia | lia | assumption | lia].
  unfold start_body, len. rewrite !app_length, !num_length, repeat_length. reflexivity.
Qed.

Lemma request_sent : forall le fam r n seq, name_fits r ->
  exists msg,
    write_num le 4 (buf le (20 + attrs_size (attributes le r))
              (start_body le (kind fam r) (command r) 1 ++ concat (map (attr_bytes le) (attributes le r))) n) 8 seq = Done msg /\
    get_len le msg 0 = Done (20 + attrs_size (attributes le r)) /\
    read msg 0 (20 + attrs_size (attributes le r)) = Done (request_bytes le fam seq r).
Proof.
  intros le fam r n seq Hr. destruct (request_attrs le r Hr) as [F1 F2].
  pose proof (attrs_size_nonneg (attributes le r)) as F3.
  set (A := attributes le r) in *. set (C := concat (map (attr_bytes le) A)).
  assert (HC : size C = attrs_size A) by apply attrs_concat_size.
  assert (E : buf le (20 + attrs_size A) (start_body le (kind fam r) (command r) 1 ++ C) n =
    (num le 4 (20 + attrs_size A) ++ num le 2 (kind fam r) ++ num le 2 5) ++ repeat 0%N 4 ++
    (repeat 0%N 4 ++ [Z.to_N (command r); Z.to_N 1; 0%N; 0%N] ++ C ++ repeat 0%N n)).
  { unfold buf, start_body. rewrite <- !app_assoc. reflexivity. }
  rewrite E. change 4 with (Z.of_nat 4) at 1. rewrite write_num_mid; cycle 1.
  { rewrite !size_app, !num_size. reflexivity. } { reflexivity. }
  eexists. split; [reflexivity |].
  assert (E' : (num le 4 (20 + attrs_size A) ++ num le 2 (kind fam r) ++ num le 2 5) ++ num le 4 seq ++
    (repeat 0%N 4 ++ [Z.to_N (command r); Z.to_N 1; 0%N; 0%N] ++ C ++ repeat 0%N n) =
    request_bytes le fam seq r ++ repeat 0%N n).
  { unfold request_bytes, msg_bytes, genl_bytes. fold A. fold C.
    replace (len ([Z.to_N (command r); Z.to_N 1; 0%N; 0%N] ++ C)) with (4 + attrs_size A)
      by (rewrite len_size, size_app, HC; reflexivity).
    replace (num le 4 0) with (repeat 0%N 4) by (now destruct le).
    replace (16 + (4 + attrs_size A)) with (20 + attrs_size A) by lia.
    rewrite <- !app_assoc. reflexivity. }
  split.
  - rewrite <- !app_assoc. change (?a ++ ?b) with ([] ++ a ++ b). unfold get_len. change 4 with (Z.of_nat 4) at 1.
    rewrite read_num_mid by reflexivity. f_equal. apply Z.mod_small. change (256 ^ Z.of_nat 4) with (2 ^ 32). lia.
  - rewrite E'. change (?a ++ ?b) with ([] ++ a ++ b). apply read_mid; [reflexivity |].
    unfold request_bytes, msg_bytes, genl_bytes. fold A. fold C. rewrite !size_app, !num_size, HC. change (size [Z.to_N (command r); Z.to_N 1; 0%N; 0%N]) with 4. lia.
Qed.
