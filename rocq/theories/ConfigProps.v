(** C60: a configuration file means what its statements say. *)
From Verif Require Import Base BufferModel MethodModel AddrModel LexModel LexSpec ConfigModel ConfigSpec ConfigProofs6 ConfigProofs10 ConfigProofs11 ConfigProofs12.
From Coq Require Import String.
Local Open Scope N_scope.

(** A configuration is accepted exactly if it consists of statements of the language, and then it is the one that the statements in effect describe *)
Theorem C60_meaning : forall E cwd name c,
  read_config E cwd name default_config = Ok (Some c) <->
  exists dir body es, main_is E cwd name dir (text body ++ [LEof]) /\ means E 9 dir 0 1 body es /\ describes E es c.
Proof. exact config_meaning. Qed.

(** Everything in an accepted configuration is in its range *)
Theorem C60_ranges : forall E cwd name c, read_config E cwd name default_config = Ok (Some c) -> in_range E c.
Proof. exact config_ranges. Qed.

(** Every input is either accepted, rejected, or ends the program with an error message; no assertion fails and no missing peer or group is used *)
Theorem C60_total : forall E cwd name, sane E ->
  (exists c, read_config E cwd name default_config = Ok (Some c)) \/ read_config E cwd name default_config = Ok None \/
  read_config E cwd name default_config = Fatal.
Proof.
  intros E cwd name S.
  assert (W : wfc default_config). { split; [reflexivity|]. cbn. intros g I. lia. }
  pose proof (read_config_total E cwd name default_config S W) as T. destruct (read_config E cwd name default_config) as [[c|]| | |]; try destruct T.
  - left. exists c. reflexivity.
  - right. left. reflexivity.
  - right. right. reflexivity.
Qed.

(** The program ends only for something that is not available, or for files that are nested too deep *)
Theorem C60_exit : forall E cwd name, sane E -> read_config E cwd name default_config = Fatal ->
  exists dir l, main_is E cwd name dir l /\ exits E 9 dir l.
Proof. intros E cwd name. exact (read_config_fatal E cwd name default_config). Qed.

(** A file that includes itself, at whatever depth it is read and whatever has been configured before *)
Theorem C60_self_include : forall E cwd f l, file_is E cwd f cwd (K "include" :: LStr f :: l) ->
  forall d g c, (g < List.length (c_groups c))%nat -> read_file E d cwd f g None c = Fatal.
Proof. exact self_include. Qed.

Print Assumptions C60_meaning.
Print Assumptions C60_ranges.
Print Assumptions C60_total.
Print Assumptions C60_exit.
Print Assumptions C60_self_include.

Local Open Scope string_scope.
(** A small file system *)
Definition ex_file (name : bytes) : option bytes :=
  if bytes_eqb name (w "m") then Some (w "mtu 0x500;include ""g"";bind [::1]:7 default;")
  else if bytes_eqb name (w "g") then Some (w "peer group ""x"" {peer limit 3;include peer ""p"";on up async ""u"";}")
  else if bytes_eqb name (w "p") then Some (w "key ""0000000000000000000000000000000000000000000000000000000000000a01"";float yes;mtu 600;")
  else if bytes_eqb name (w "c") then Some (w "mode tun;cipher ""a"" use ""b"";")
  else if bytes_eqb name (w "s") then Some (w "include ""s"";")
  else if bytes_eqb name (w "b") then Some (w "mtu 575;")
  else None.
Definition ex_env : env :=
  Env (Build true true true true true true true) (fun a => if Nat.leb (List.length a) 15 then Some a else None)
    (fun a => if Nat.leb (List.length a) 45 then Some ((repeat 0 15 ++ [1])%list) else None) (fun a => a) (fun _ _ => false) (fun _ _ => false) (w "ec25519-fhmqvc")
    (fun _ => true) ([], [], false) (fun _ name => option_map (fun s => (s, [3; 4; 5]%nat, false)) (ex_file name)) (fun _ d => Some d) (fun _ => w "/").
Definition ex_read (name : string) : res (option conf) := read_config ex_env (w "/") (Some (w name)) default_config.

Example C60_meaning_ex : match ex_read "m" with
  | Ok (Some c) =>
      c_mtu c = 1280 /\ map gc_name (c_groups c) = [w "default"; w "x"] /\ map gc_limit (c_groups c) = [None; Some 3] /\
      map gc_up (c_groups c) = [None; Some (Command (w "u") (w "/") false)] /\
      c_binds c = [Bind (BAddr (AInet6 ((repeat 0 15 ++ [1])%list) [0; 7] (zeros 4) (zeros 4))) None true true false] /\ c_default4 c = None /\ c_default6 c = Some O /\
      c_peers c = [PeerConf None 1 None (Some ((repeat 0 30 ++ [10; 1])%list)) [] true None 600]
  | _ => False
  end.
Proof. vm_compute. repeat (split; [reflexivity|]). reflexivity. Qed.
(** What it does not accept *)
Example C60_rejected_ex : ex_read "b" = Ok None /\ ex_read "p" = Ok None /\ ex_read "nothing" = Ok None.
Proof. vm_compute. repeat split. Qed.
Example C60_total_ex : sane ex_env.
Proof. split; intros a H; cbn [e_pton4 e_pton6 ex_env]; [destruct (Nat.leb_spec (List.length a) 15)|destruct (Nat.leb_spec (List.length a) 45)]; (reflexivity || lia). Qed.
Example C60_exit_ex : ex_read "c" = Fatal.
Proof. vm_compute. reflexivity. Qed.
Example C60_self_include_ex : file_is ex_env (w "/") (w "s") (w "/") [K "include"; LStr (w "s"); LChar 59; LEof] /\ ex_read "s" = Fatal.
Proof.
  split; [|vm_compute; reflexivity]. unfold file_is. eexists _, _, _, _. split; [reflexivity|]. split; [reflexivity|]. split; [vm_compute; reflexivity|]. vm_compute. reflexivity.
Qed.
