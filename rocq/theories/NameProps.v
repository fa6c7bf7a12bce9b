(** Theorems about method names *)
From Verif Require Import Base BufferModel NameModel NameSpec NameProofs.
From Coq Require Import String.

(** C54: whatever was compiled in and in whatever order, a name is recognised exactly if the documentation
    gives it a meaning, the provider is there, and all ciphers and MACs it needs are available; then the method uses exactly those. *)
Theorem C54_names : forall e ps name, env_ok e -> c_string name -> name <> [] ->
  exists r, create_by_name e ps name = Ok r /\
    forall p m, r = Some (p, m) <-> (In p ps /\ supports e m /\ exists s, name = str s /\ denotes s p m).
Proof. exact create_by_name_total. Qed.
Print Assumptions C54_names.

(** A name has one meaning, and no method has two names. *)
Theorem C54_unambiguous : forall s p m p' m', denotes s p m -> denotes s p' m' -> p = p' /\ m = m'.
Proof. exact denotes_unique. Qed.
Print Assumptions C54_unambiguous.

Theorem C54_one_name : forall s s' p m, denotes s p m -> denotes s' p m -> s = s'.
Proof. exact denotes_injective. Qed.
Print Assumptions C54_one_name.

(** The configuration: either some name used in a group is not supported and the program ends with an error message,
    or every name used in any group is found afterwards, with its meaning, and no other; the array of methods is never exceeded. *)
Theorem C54_configured : forall e ps root, env_ok e -> (forall s, used root s -> c_string s /\ s <> []) ->
  let root' := match root with Group [] ch => Group [str "null"] ch | _ => root end in
  ((exists s, used root' s /\ create_by_name e ps s = Ok None) /\ config_check e ps root = Fatal) \/
  (exists t, config_check e ps root = Ok (root', t) /\
     (forall s, used root' s -> exists p m, get_by_name t s = Ok (Some (s, p, m)) /\ create_by_name e ps s = Ok (Some (p, m))) /\
     (forall s, ~ used root' s -> get_by_name t s = Ok None)).
Proof. exact configured. Qed.
Print Assumptions C54_configured.

(** The order of preference is that of the file: a name comes after exactly those that were given before it was given first, and only once. *)
Theorem C54_preference : forall ns, let l := fold_left config_method ns [] in
  NoDup l /\ (forall s, In s l <-> In s ns) /\
  forall ns1 s ns2, ns = ns1 ++ s :: ns2 -> ~ In s ns1 -> exists l1 l2, l = l1 ++ s :: l2 /\ forall t, In t l1 <-> In t ns1.
Proof. exact preference. Qed.
Print Assumptions C54_preference.

(** When everything was compiled in, the providers of all documented names are there. *)
Theorem C54_complete : forall s p m, denotes s p m -> In p all_providers.
Proof. exact providers_complete. Qed.
Print Assumptions C54_complete.

Example C54_preference_ex :
  fold_left config_method [str "null"; str "salsa20+umac"; str "null"; str "aes128-gcm"; str "salsa20+umac"] [] = [str "null"; str "salsa20+umac"; str "aes128-gcm"].
Proof. reflexivity. Qed.

(** A build with everything *)
Definition full : env := mk_env (map (fun c => (c, true)) all_ciphers) (map (fun m => (m, true)) all_macs).

(** An empty name, which the configuration accepts, makes composed-gmac use an array of size 0. *)
Theorem C54_empty_name_refuted : ~ (forall e ps name, env_ok e -> c_string name -> exists r, create_by_name e ps name = Ok r).
Proof.
  intros H. assert (X : env_ok full).
  { split; [|split; [|split]]; try (apply incl_refl).
    - repeat constructor; cbn; intuition discriminate.
    - repeat constructor; cbn; intuition discriminate. }
  destruct (H full all_providers [] X (fun F => F)) as [r E]. vm_compute in E. discriminate.
Qed.
Print Assumptions C54_empty_name_refuted.

Example C54_hypotheses_met : env_ok full /\
  create_by_name full all_providers (str "salsa2012+umac") = Ok (Some (GenericUmac, M_generic (ci Salsa2012) (str "uhash"))) /\
  create_by_name full all_providers (str "null+aes128-gmac") = Ok (Some (ComposedGmac, M_composed (ci Null) (ci Aes128Ctr) (str "ghash"))) /\
  create_by_name full all_providers (str "aes128-gcm") = Ok (Some (GenericGmac, M_generic (ci Aes128Ctr) (str "ghash"))) /\
  create_by_name full all_providers (str "aes128-ctr+gmac") = Ok None /\
  create_by_name full all_providers (str "null+null+umac") = Ok None /\
  create_by_name (mk_env [(ci Salsa20, true); (ci Salsa2012, false)] [(str "uhash", true)]) all_providers (str "salsa2012+umac") = Ok None.
Proof.
  split; [|repeat split].
  split; [|split; [|split]]; try (apply incl_refl); repeat constructor; cbn; intuition discriminate.
Qed.

(** Two nested groups with overlapping lists, and a configuration without methods *)
Example C54_configured_met :
  (exists t, config_check full all_providers (Group [str "null"; str "aes128-gcm"] [Group [str "aes128-gcm"; str "salsa20+umac"] []]) =
    Ok (Group [str "null"; str "aes128-gcm"] [Group [str "aes128-gcm"; str "salsa20+umac"] []], t) /\
    get_by_name t (str "salsa20+umac") = Ok (Some (str "salsa20+umac", GenericUmac, M_generic (ci Salsa20) (str "uhash"))) /\ List.length t = 4) /\
  (exists t, config_check full all_providers (Group [] [Group [] []]) = Ok (Group [str "null"] [Group [] []], t) /\
    get_by_name t (str "null") = Ok (Some (str "null", PlainNull, M_none))) /\
  config_check full all_providers (Group [str "aes"] []) = Fatal.
Proof.
  split; [eexists; split; [vm_compute; reflexivity | split; reflexivity]|]. split; [eexists; split; vm_compute; reflexivity | reflexivity].
Qed.
