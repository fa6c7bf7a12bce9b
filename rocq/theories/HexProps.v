(** C56: keys are read and printed in hexadecimal without loss. *)
From Verif Require Import Base BufferModel NameModel HexModel HexSpec HexProofs.
From Coq Require Import String.

(** A text is accepted as a key exactly if it spells 32 bytes, and then the key is these bytes, all of them set. *)
Theorem C56_read_key : forall s, (exists k, List.length k = 32 /\ spells s k /\ read_key s = Ok (Some (map Some k))) \/
  ((forall k, List.length k = 32 -> ~ spells s k) /\ read_key s = Ok None).
Proof. exact read_key_iff. Qed.
Print Assumptions C56_read_key.

(** A text spells at most one key, and the texts for the same key differ in upper and lower case only. *)
Theorem C56_texts_of_a_key : forall s1 k, spells s1 k ->
  (forall k', spells s1 k' -> k' = k) /\
  forall s2, spells s2 k <-> (map lower s2 = map lower s1 /\ forall c, In c s2 -> exists v, digit_is c v).
Proof. intros s1 k H. split; [intros k' H'; exact (spells_fun _ _ H' _ H)|exact (spells_lower s1 k H)]. Qed.
Print Assumptions C56_texts_of_a_key.

(** [hexdump] fills its 65 bytes exactly, with the lower case text and a zero. *)
Theorem C56_hexdump : forall d, List.length d = 32 -> wf_bytes d ->
  exists s, hexdump d = Ok (map Some (s ++ [0%N])) /\ List.length s = 64 /\ spells s d /\ (forall c, In c s -> ~ is_capital c).
Proof. exact hexdump_ok. Qed.
Print Assumptions C56_hexdump.

(** What --generate-key and --show-key print is read back as the same key. *)
Theorem C56_round_trip : forall desc d, List.length d = 32 -> wf_bytes d ->
  exists s, print_hexdump desc d = Ok (desc ++ s ++ [10%N]) /\ read_key s = Ok (Some (map Some d)).
Proof. exact print_ok. Qed.
Print Assumptions C56_round_trip.

(** A peer without a name is described by the beginning of its key, whatever the size of the buffer. *)
Theorem C56_describe : forall len d, len <> 0 -> List.length d = 32 -> wf_bytes d ->
  exists s, spells s d /\ (forall c, In c s -> ~ is_capital c) /\ describe_peer len d = Ok (firstn (len - 1) s).
Proof. exact describe_ok. Qed.
Print Assumptions C56_describe.

Definition ex_text : bytes := str "00Ff7f80deadBEEF0123456789abcdefABCDEF0000112233445566778899aAbB".
Example C56_example :
  let k := [0x00; 0xff; 0x7f; 0x80; 0xde; 0xad; 0xbe; 0xef; 0x01; 0x23; 0x45; 0x67; 0x89; 0xab; 0xcd; 0xef;
            0xab; 0xcd; 0xef; 0x00; 0x00; 0x11; 0x22; 0x33; 0x44; 0x55; 0x66; 0x77; 0x88; 0x99; 0xaa; 0xbb]%N in
  read_key ex_text = Ok (Some (map Some k)) /\ List.length k = 32 /\ wf_bytesb k = true /\
  describe_peer 17 k = Ok (str "00ff7f80deadbeef") /\
  read_key (str "00") = Ok None /\ read_key (0x67%N :: skipn 1 ex_text) = Ok None.
Proof. vm_compute. repeat split. Qed.
