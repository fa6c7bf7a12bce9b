(** Common definitions: bytes, big- and little-endian numbers, time constants.

    Bytes and machine words are [N]; times (milliseconds) are [Z]. *)
From Coq Require Export List NArith ZArith Lia Bool Arith.
From Coq Require Export ZifyBool ZifyNat ZifyN.
Export ListNotations.
Ltac Zify.zify_post_hook ::= Z.div_mod_to_equations.

#[global] Arguments N.add : simpl never.
#[global] Arguments N.mul : simpl never.
#[global] Arguments N.sub : simpl never.
#[global] Arguments N.modulo : simpl never.
#[global] Arguments N.div : simpl never.
#[global] Arguments N.pow : simpl never.
#[global] Arguments Z.add : simpl never.
#[global] Arguments Z.mul : simpl never.
#[global] Arguments Z.sub : simpl never.
#[global] Arguments Z.pow : simpl never.
#[global] Arguments Z.modulo : simpl never.
#[global] Arguments Z.div : simpl never.

Definition byte := N.
Definition bytes := list byte.

Definition is_byte (b : byte) : Prop := (b < 256)%N.
Definition wf_bytes (l : bytes) : Prop := Forall is_byte l.
Definition is_byteb (b : byte) : bool := (b <? 256)%N.
Definition wf_bytesb (l : bytes) : bool := forallb is_byteb l.

(** Big-endian value of a byte string. *)
Fixpoint be_val (l : bytes) : N :=
  match l with
  | [] => 0
  | b :: r => b * 2 ^ (8 * N.of_nat (length r)) + be_val r
  end%N.

(** Big-endian encoding with a given number of bytes. *)
Fixpoint be_bytes (n : nat) (v : N) : bytes :=
  match n with
  | O => []
  | S n' => (v / 2 ^ (8 * N.of_nat n')) mod 256 :: be_bytes n' v
  end%N.

(** Little-endian value / encoding. *)
Fixpoint le_val (l : bytes) : N :=
  match l with
  | [] => 0
  | b :: r => b + 256 * le_val r
  end%N.

Fixpoint le_bytes (n : nat) (v : N) : bytes :=
  match n with
  | O => []
  | S n' => v mod 256 :: le_bytes n' (v / 256)
  end%N.

(** [fastd_timed_out] (src/fastd.h L583-586): a timeout has passed iff it is not
    in the future. [now] is the global [ctx.now]. *)
Definition timed_out (now t : Z) : bool := (t <=? now)%Z.

(** Constants (src/build.h.in L98-158). *)
Definition KEY_VALID : Z := 3600000.
Definition KEY_VALID_OLD : Z := 60000.
Definition KEY_REFRESH : Z := 3300000.
Definition KEY_REFRESH_SPLAY : Z := 300000.
Definition REORDER_TIME : Z := 10000.
Definition KEEPALIVE_TIMEOUT : Z := 20000.
Definition PEER_STALE_TIME : Z := 90000.
Definition ETH_ADDR_STALE_TIME : Z := 300000.
Definition MAINTENANCE_INTERVAL : Z := 10000.
Definition MIN_VERIFY_INTERVAL : Z := 10000.
Definition VERIFY_VALID_TIME : Z := 60000.
Definition MIN_HANDSHAKE_INTERVAL : Z := 15000.
Definition MIN_RESOLVE_INTERVAL : Z := 15000.
