(** Every message the program logs: the calls of pr_fatal, pr_error, pr_warn, pr_info,
    pr_verbose, pr_debug, pr_debug2, exit_error, exit_fatal and the macros of log.h L60-83 that are
    made of them (pr_*_errno, exit_errno, exit_bug), with the C types of the arguments.
    Taken from the source by a script; only the call in log.c L195 is not included (see
    [unknown_format]).  The version in fastd.c L486 is an example. *)
From Coq Require Import String.
From Verif Require Import Base LogModel.
Import ListNotations.
Local Open Scope string_scope.
Local Open Scope list_scope.

(** C types, after promotion; for pointers, what they point to *)
Inductive ty : Set :=
| TInt       (* int *)
| TNat       (* int that is not negative: constants, uint8_t, uint16_t, descriptors *)
| TUint      (* unsigned *)
| TSize      (* size_t *)
| TStr       (* string *)
| TStrNull   (* string or NULL *)
| TNet       (* string received in a packet *)
| TMac       (* MAC address *)
| TPeer      (* peer *)
| TKey       (* 32 bytes *)
| TKeyLen    (* (size_t)32 *)
| TRemote    (* address of another host *)
| TBind.     (* address of a socket *)

Record call := mk_call { k_file : string; k_line : N; k_level : N; k_fmt : string; k_args : list ty }.

Definition calls : list call := [
  mk_call "alloc.h" 63 LL_ERROR "posix_memalign: %s" [TStr];
  mk_call "android.c" 178 LL_ERROR "could not receive TUN handle from Android" [];
  mk_call "android.c" 182 LL_DEBUG "received fd: %u" [TNat];
  mk_call "android.c" 203 LL_DEBUG "sending fd to protect" [];
  mk_call "buffer.c" 56 LL_FATAL "BUG: oversized buffer alloc (%Z > %Z)" [TSize; TSize];
  mk_call "capabilities.c" 41 LL_VERBOSE "trying to acquire %s" [TStr];
  mk_call "capabilities.c" 51 LL_VERBOSE "acquired capability %s" [TStr];
  mk_call "capabilities.c" 99 LL_VERBOSE "retaining %s" [TStr];
  mk_call "capabilities.c" 140 LL_VERBOSE "dropped capabilities" [];
  mk_call "config.c" 67 LL_ERROR "config error: protocol `%s' not supported" [TStr];
  mk_call "config.c" 76 LL_DEBUG "duplicate method name `%s', ignoring" [TStr];
  mk_call "config.c" 109 LL_ERROR "config error: implementation `%s' is not supported for cipher `%s' (or cipher `%s' is not supported)" [TStr; TStr; TStr];
  mk_call "config.c" 117 LL_ERROR "config error: implementation `%s' is not supported for MAC `%s' (or MAC `%s' is not supported)" [TStr; TStr; TStr];
  mk_call "config.c" 126 LL_ERROR "config error: device bind configuration not supported on this system" [];
  mk_call "config.c" 231 LL_VERBOSE "ignoring file `%s' as it seems to be a backup file" [TStr];
  mk_call "config.c" 237 LL_WARN "ignoring file `%s': stat failed: %s" [TStr; TStr];
  mk_call "config.c" 241 LL_INFO "ignoring file `%s': no regular file" [TStr];
  mk_call "config.c" 261 LL_ERROR "opendir for `%s' failed: %s" [TStr; TStr];
  mk_call "config.c" 274 LL_ERROR "change from directory `%s' to `%s' failed: %s" [TStrNull; TStr; TStr];
  mk_call "config.c" 278 LL_ERROR "can't chdir to `%s': %s" [TStrNull; TStr];
  mk_call "config.c" 293 LL_ERROR "can't chdir to `%s': %s" [TStrNull; TStr];
  mk_call "config.c" 295 LL_ERROR "change from directory `%s' to `%s' failed: %s" [TStrNull; TStr; TStr];
  mk_call "config.c" 304 LL_ERROR "maximum config include depth exceeded" [];
  mk_call "config.c" 322 LL_ERROR "can't open config file `%s': %s" [TStrNull; TStr];
  mk_call "config.c" 335 LL_ERROR "change from directory `%s' to `%s' failed" [TStrNull; TStr];
  mk_call "config.c" 364 LL_ERROR "config error: %s at %s:%i:%i" [TStr; TStrNull; TInt; TInt];
  mk_call "config.c" 389 LL_ERROR "can't chdir to `%s': %s" [TStrNull; TStr];
  mk_call "config.c" 421 LL_ERROR "config error: unable to find user `%s'." [TStr];
  mk_call "config.c" 442 LL_ERROR "config error: unable to find group `%s'." [TStr];
  mk_call "config.c" 519 LL_ERROR "config error: method `%s' not supported" [TStr];
  mk_call "config.c" 549 LL_ERROR "In Android integration mode only TUN interfaces are supported" [];
  mk_call "config.c" 552 LL_ERROR "In Android integration mode exactly one peer must be configured" [];
  mk_call "config.c" 557 LL_ERROR "L2TP offload is available in multi-TAP mode only" [];
  mk_call "config.c" 560 LL_ERROR "`persist iface' must be set to `no' for L2TP offload" [];
  mk_call "config.c" 569 LL_ERROR "config error: neither fixed peers nor peer dirs have been configured" [];
  mk_call "config.c" 572 LL_WARN "no encryption method configured, falling back to method `null' (unencrypted)" [];
  mk_call "config.y" 244 LL_WARN "'secure handshakes' configuration is deprecated, insecure handshakes are not supported anymore" [];
  mk_call "config.y" 711 LL_ERROR "config error: %s at %s:%i:%i" [TStr; TStrNull; TInt; TInt];
  mk_call "fastd.c" 231 LL_WARN "fastd doesn't support pid file in GUI integration mode on Android" [];
  mk_call "fastd.c" 289 LL_INFO "changed to UID %u, GID %u" [TUint; TUint];
  mk_call "fastd.c" 394 LL_DEBUG "sent startup notification to systemd" [];
  mk_call "fastd.c" 443 LL_ERROR "can't chdir to `/': %s" [TStr];
  mk_call "fastd.c" 455 LL_ERROR "unable to initialize libsodium" [];
  mk_call "fastd.c" 486 LL_INFO "fastd v22 starting" [];
  mk_call "fastd.c" 553 LL_DEBUG "child process %u finished" [TUint];
  mk_call "fastd.c" 572 LL_INFO "reconfigure triggered" [];
  mk_call "fastd.c" 580 LL_INFO "triggered reset of all connections" [];
  mk_call "fastd.c" 614 LL_INFO "terminating fastd" [];
  mk_call "handshake.c" 240 LL_WARN "Handshake with %I failed: %s error: mandatory field `%s' missing" [TRemote; TStr; TStr];
  mk_call "handshake.c" 247 LL_WARN "Handshake with %I failed: %s error: peer doesn't use the handshake protocol `%s'" [TRemote; TStr; TStr];
  mk_call "handshake.c" 252 LL_WARN "Handshake with %I failed: %s error: TUN/TAP mode mismatch" [TRemote; TStr];
  mk_call "handshake.c" 256 LL_WARN "Handshake with %I failed: %s error: MTU configuration differs with peer (local MTU is %u)" [TRemote; TStr; TNat];
  mk_call "handshake.c" 262 LL_WARN "Handshake with %I failed: %s error: no common methods are configured" [TRemote; TStr];
  mk_call "handshake.c" 267 LL_WARN "Handshake with %I failed: %s error: unacceptable value for field `%s'" [TRemote; TStr; TStr];
  mk_call "handshake.c" 274 LL_WARN "Handshake with %I failed: %s error: unknown code %i" [TRemote; TStr; TNat];
  mk_call "handshake.c" 415 LL_WARN "received handshake reply without reply code from %I" [TRemote];
  mk_call "handshake.c" 504 LL_WARN "received a short handshake from %I" [TRemote];
  mk_call "handshake.c" 509 LL_DEBUG "received handshake without handshake type from %I" [TRemote];
  mk_call "iface.c" 147 LL_DEBUG "using android TUN fd" [];
  mk_call "iface.c" 248 LL_ERROR "Invalid %s interface `%s'" [TStr; TStr];
  mk_call "iface.c" 306 LL_ERROR "config error: no interface name given." [];
  mk_call "iface.c" 313 LL_ERROR "config error: `%s' doesn't seem to be a TAP device" [TStr];
  mk_call "iface.c" 320 LL_ERROR "config error: `%s' doesn't seem to be a TUN device" [TStr];
  mk_call "iface.c" 383 LL_ERROR "config error: no interface name given." [];
  mk_call "iface.c" 386 LL_ERROR "config error: `%s' doesn't seem to be a %s device" [TStr; TStr];
  mk_call "iface.c" 451 LL_DEBUG "fastd_iface_write: truncated packet" [];
  mk_call "iface.c" 469 LL_DEBUG "fastd_iface_write: unknown IP version %u" [TNat];
  mk_call "iface.c" 503 LL_ERROR "invalid TUN/TAP device name: `%%n' and `%%k' patterns can't be used in TAP mode" [];
  mk_call "iface.c" 516 LL_ERROR "invalid `%%n' interface pattern for peer without name" [];
  mk_call "iface.c" 525 LL_ERROR "invalid `%%k' interface pattern for peer without key" [];
  mk_call "iface.c" 551 LL_DEBUG "initializing TUN/TAP device..." [];
  mk_call "iface.c" 567 LL_DEBUG "TUN/TAP device `%s' initialized." [TStr];
  mk_call "iface.c" 569 LL_DEBUG "TUN/TAP device initialized." [];
  mk_call "log.h" 60 LL_ERROR "%s: %s" [TStr; TStr];
  mk_call "log.h" 62 LL_WARN "%s: %s" [TStr; TStr];
  mk_call "log.h" 64 LL_DEBUG "%s: %s" [TStr; TStr];
  mk_call "log.h" 66 LL_DEBUG2 "%s: %s" [TStr; TStr];
  mk_call "log.h" 75 LL_FATAL "BUG: %s" [TStr];
  mk_call "log.h" 83 LL_ERROR "%s: %s" [TStr; TStr];
  mk_call "methods/cipher_test/cipher_test.c" 82 LL_WARN "using cipher-test method with %P; this method must be used for testing and benchmarks only" [TPeer];
  mk_call "methods/common.c" 86 LL_DEBUG "dropping duplicate packet from %P (age %u)" [TPeer; TUint];
  mk_call "methods/common.c" 89 LL_DEBUG2 "accepting reordered packet from %P (age %u)" [TPeer; TUint];
  mk_call "offload/l2tp/l2tp.c" 381 LL_DEBUG "initializing L2TP offload device..." [];
  mk_call "offload/l2tp/l2tp.c" 433 LL_DEBUG "L2TP offload device `%s' initialized." [TStr];
  mk_call "options.c" 121 LL_ERROR "invalid peer definition" [];
  mk_call "options.c" 165 LL_ERROR "invalid log level `%s'" [TStr];
  mk_call "options.c" 207 LL_ERROR "invalid mode `%s'" [TStr];
  mk_call "options.c" 221 LL_ERROR "invalid mtu `%s'" [TStr];
  mk_call "options.c" 238 LL_ERROR "invalid bind address `%s'" [TStr];
  mk_call "options.c" 258 LL_ERROR "invalid bind port `%s'" [TStr];
  mk_call "options.c" 276 LL_ERROR "invalid bind address `[%s]'" [TStr];
  mk_call "options.c" 285 LL_ERROR "invalid bind address `%s'" [TStr];
  mk_call "options.c" 431 LL_ERROR "command line error: option `%s' needs an argument; see --help for usage" [TStr];
  mk_call "options.c" 444 LL_ERROR "command line error: unknown option `%s'; see --help for usage" [TStr];
  mk_call "peer.c" 210 LL_DEBUG "resetting socket for peer %P" [TPeer];
  mk_call "peer.c" 236 LL_DEBUG2 "Removing scheduled task for %P" [TPeer];
  mk_call "peer.c" 239 LL_DEBUG2 "Replacing scheduled task for %P" [TPeer];
  mk_call "peer.c" 243 LL_DEBUG2 "Keeping scheduled task for %P" [TPeer];
  mk_call "peer.c" 295 LL_INFO "connection with %P disestablished." [TPeer];
  mk_call "peer.c" 473 LL_VERBOSE "deleting peer %P" [TPeer];
  mk_call "peer.c" 654 LL_DEBUG "resetting peer %P" [TPeer];
  mk_call "peer.c" 730 LL_WARN "no valid key configured for peer %P" [TPeer];
  mk_call "peer.c" 742 LL_WARN "duplicate key used by peers %P and %P, disabling both" [TPeer; TPeer];
  mk_call "peer.c" 748 LL_VERBOSE "peer %P has been renamed to %P" [TPeer; TPeer];
  mk_call "peer.c" 757 LL_VERBOSE "peer %P is unchanged" [TPeer];
  mk_call "peer.c" 762 LL_VERBOSE "peer %P has changed" [TPeer];
  mk_call "peer.c" 770 LL_VERBOSE "dynamic peer %P is now configured as %P" [TPeer; TPeer];
  mk_call "peer.c" 783 LL_VERBOSE "adding peer %P" [TPeer];
  mk_call "peer.c" 794 LL_DEBUG "not sending a handshake to %P (no valid address resolved)" [TPeer];
  mk_call "peer.c" 820 LL_DEBUG "not sending a handshake to %P as we sent one a short time ago" [TPeer];
  mk_call "peer.c" 880 LL_INFO "connection with %P established." [TPeer];
  mk_call "peer.c" 921 LL_DEBUG "learned new MAC address %E on peer %P" [TMac; TPeer];
  mk_call "peer.c" 923 LL_DEBUG "learned new local MAC address %E" [TMac];
  mk_call "peer.c" 944 LL_DEBUG "temporarily disabling handshakes with %P" [TPeer];
  mk_call "peer.c" 998 LL_DEBUG2 "sending keepalive to %P" [TPeer];
  mk_call "peer.c" 1016 LL_DEBUG "MAC address %E not seen for more than %u seconds, removing" [TMac; TNat];
  mk_call "peer_hashtable.c" 44 LL_DEBUG "resizing peer address hashtable to %u buckets" [TUint];
  mk_call "polling.c" 90 LL_ERROR "unexpected poll error" [];
  mk_call "protocols/ec25519_fhmqvc/ec25519_fhmqvc.c" 34 LL_VERBOSE "refreshing session with %P" [TPeer];
  mk_call "protocols/ec25519_fhmqvc/ec25519_fhmqvc.c" 46 LL_ERROR "no secret key configured" [];
  mk_call "protocols/ec25519_fhmqvc/ec25519_fhmqvc.c" 49 LL_ERROR "invalid secret key" [];
  mk_call "protocols/ec25519_fhmqvc/ec25519_fhmqvc.c" 56 LL_ERROR "invalid secret key" [];
  mk_call "protocols/ec25519_fhmqvc/ec25519_fhmqvc.c" 80 LL_VERBOSE "found own key as %P, ignoring peer" [TPeer];
  mk_call "protocols/ec25519_fhmqvc/ec25519_fhmqvc.c" 92 LL_VERBOSE "active session with %P timed out" [TPeer];
  mk_call "protocols/ec25519_fhmqvc/ec25519_fhmqvc.c" 126 LL_DEBUG2 "verification failed for packet received from %P" [TPeer];
  mk_call "protocols/ec25519_fhmqvc/ec25519_fhmqvc.c" 131 LL_DEBUG "invalidating old session with %P" [TPeer];
  mk_call "protocols/ec25519_fhmqvc/ec25519_fhmqvc.c" 138 LL_DEBUG "cleaning left handshakes with %P" [TPeer];
  mk_call "protocols/ec25519_fhmqvc/ec25519_fhmqvc.c" 172 LL_ERROR "failed to encrypt packet for %P" [TPeer];
  mk_call "protocols/ec25519_fhmqvc/ec25519_fhmqvc.c" 193 LL_DEBUG2 "sending packet for old session to %P" [TPeer];
  mk_call "protocols/ec25519_fhmqvc/handshake.c" 73 LL_DEBUG "method of %P has changed, terminating old session" [TPeer];
  mk_call "protocols/ec25519_fhmqvc/handshake.c" 117 LL_DEBUG "ignoring handshake from %P[%I] because of handshake key reuse" [TPeer; TRemote];
  mk_call "protocols/ec25519_fhmqvc/handshake.c" 121 LL_VERBOSE "%I authenticated as %P" [TRemote; TPeer];
  mk_call "protocols/ec25519_fhmqvc/handshake.c" 124 LL_WARN "can't establish session with %P[%I] as the address is used by another peer" [TPeer; TRemote];
  mk_call "protocols/ec25519_fhmqvc/handshake.c" 131 LL_ERROR "failed to initialize method session for %P (method `%s')" [TPeer; TStr];
  mk_call "protocols/ec25519_fhmqvc/handshake.c" 144 LL_VERBOSE "new session with %P established using method `%s'%s." [TPeer; TStr; TStr];
  mk_call "protocols/ec25519_fhmqvc/handshake.c" 284 LL_DEBUG "responding handshake with %P[%I]..." [TPeer; TRemote];
  mk_call "protocols/ec25519_fhmqvc/handshake.c" 316 LL_DEBUG "finishing handshake with %P[%I]..." [TPeer; TRemote];
  mk_call "protocols/ec25519_fhmqvc/handshake.c" 338 LL_WARN "received invalid protocol handshake response from %P[%I]" [TPeer; TRemote];
  mk_call "protocols/ec25519_fhmqvc/handshake.c" 370 LL_DEBUG "handling handshake finish with %P[%I]..." [TPeer; TRemote];
  mk_call "protocols/ec25519_fhmqvc/handshake.c" 390 LL_WARN "received invalid protocol handshake finish from %P[%I]" [TPeer; TRemote];
  mk_call "protocols/ec25519_fhmqvc/handshake.c" 481 LL_VERBOSE "sending handshake to %P[%I]..." [TPeer; TRemote];
  mk_call "protocols/ec25519_fhmqvc/handshake.c" 483 LL_VERBOSE "sending handshake to unknown peer %I" [TRemote];
  mk_call "protocols/ec25519_fhmqvc/handshake.c" 502 LL_VERBOSE "ignoring handshake from %I (unknown key %H)" [TRemote; TKey; TKeyLen];
  mk_call "protocols/ec25519_fhmqvc/handshake.c" 524 LL_DEBUG "ignoring handshake from %I (received on another peer's socket)" [TRemote];
  mk_call "protocols/ec25519_fhmqvc/handshake.c" 529 LL_DEBUG "ignoring handshake from %I (used our own key)" [TRemote];
  mk_call "protocols/ec25519_fhmqvc/handshake.c" 534 LL_DEBUG "ignoring handshake from %I (disabled key %H)" [TRemote; TKey; TKeyLen];
  mk_call "protocols/ec25519_fhmqvc/handshake.c" 543 LL_DEBUG "ignoring handshake from %I (invalid key)" [TRemote];
  mk_call "protocols/ec25519_fhmqvc/handshake.c" 555 LL_DEBUG "not adding dynamic peer %P[%I] because of local constraints" [TPeer; TRemote];
  mk_call "protocols/ec25519_fhmqvc/handshake.c" 592 LL_DEBUG "ignoring handshake from %P[%I] (verification failed)" [TPeer; TRemote];
  mk_call "protocols/ec25519_fhmqvc/handshake.c" 633 LL_DEBUG "received handshake without sender key from %I" [TRemote];
  mk_call "protocols/ec25519_fhmqvc/handshake.c" 641 LL_DEBUG "ignoring handshake from %I with key %H (incorrect source address)" [TRemote; TKey; TKeyLen];
  mk_call "protocols/ec25519_fhmqvc/handshake.c" 662 LL_DEBUG "received handshake without sender handshake key from %P[%I]" [TPeer; TRemote];
  mk_call "protocols/ec25519_fhmqvc/handshake.c" 667 LL_DEBUG "ignoring handshake from %P[%I] because of local constraints" [TPeer; TRemote];
  mk_call "protocols/ec25519_fhmqvc/handshake.c" 672 LL_DEBUG "received repeated handshakes from %P[%I], ignoring" [TPeer; TRemote];
  mk_call "protocols/ec25519_fhmqvc/handshake.c" 680 LL_DEBUG "received protocol handshake with wrong recipient key from %P[%I]" [TPeer; TRemote];
  mk_call "protocols/ec25519_fhmqvc/handshake.c" 698 LL_DEBUG "not responding to repeated handshake from %P[%I]" [TPeer; TRemote];
  mk_call "protocols/ec25519_fhmqvc/handshake.c" 702 LL_VERBOSE "received handshake from %P[%I]%s%s" [TPeer; TRemote; TStr; TNet];
  mk_call "protocols/ec25519_fhmqvc/handshake.c" 713 LL_DEBUG "recived handshake reply without recipient key from %P[%I]" [TPeer; TRemote];
  mk_call "protocols/ec25519_fhmqvc/handshake.c" 718 LL_DEBUG "received handshake reply without receipient handshake key from %P[%I]" [TPeer; TRemote];
  mk_call "protocols/ec25519_fhmqvc/handshake.c" 723 LL_DEBUG "received handshake reply without TLV MAC from %P[%I]" [TPeer; TRemote];
  mk_call "protocols/ec25519_fhmqvc/handshake.c" 740 LL_DEBUG "received handshake reply with unexpected recipient handshake key from %P[%I]" [TPeer; TRemote];
  mk_call "protocols/ec25519_fhmqvc/handshake.c" 748 LL_VERBOSE "received handshake response from %P[%I]%s%s" [TPeer; TRemote; TStr; TNet];
  mk_call "protocols/ec25519_fhmqvc/handshake.c" 756 LL_DEBUG "received handshake finish from %P[%I]%s%s" [TPeer; TRemote; TStr; TNet];
  mk_call "protocols/ec25519_fhmqvc/handshake.c" 765 LL_DEBUG "received handshake reply with unknown type %u from %P[%I]" [TNat; TPeer; TRemote];
  mk_call "protocols/ec25519_fhmqvc/state.c" 51 LL_DEBUG "generating new handshake key" [];
  mk_call "protocols/ec25519_fhmqvc/util.c" 31 LL_INFO "Reading 32 bytes from /dev/random..." [];
  mk_call "receive.c" 128 LL_DEBUG2 "sent a handshake to unknown address %I a short time ago, not sending again" [TRemote];
  mk_call "receive.c" 185 LL_DEBUG2 "ignoring packet from %I on dynamic socket of %P" [TRemote; TPeer];
  mk_call "receive.c" 202 LL_DEBUG "received short control packet from %I" [TRemote];
  mk_call "receive.c" 208 LL_DEBUG "received control packet with unknown version from %I" [TRemote];
  mk_call "receive.c" 223 LL_DEBUG "received packet from unknown address %I" [TRemote];
  mk_call "receive.c" 231 LL_DEBUG "unexpectedly received payload data from %I" [TRemote];
  mk_call "receive.c" 235 LL_DEBUG "received packet with invalid type from %I" [TRemote];
  mk_call "receive.c" 275 LL_ERROR "received packet without packet info" [];
  mk_call "receive.c" 290 LL_DEBUG "received packet from offloaded session" [];
  mk_call "receive.c" 297 LL_DEBUG "received truncated packet" [];
  mk_call "resolve.c" 52 LL_VERBOSE "resolving host `%s' failed: %s" [TStr; TStr];
  mk_call "resolve.c" 69 LL_WARN "resolving host `%s': unsupported address returned" [TStr];
  mk_call "resolve.c" 81 LL_VERBOSE "resolved host `%s' successfully" [TStr];
  mk_call "resolve.c" 109 LL_VERBOSE "resolving host `%s' for peer %P..." [TStr; TPeer];
  mk_call "send.c" 120 LL_DEBUG2 "sendmsg: %s (trying again without pktinfo)" [TStr];
  mk_call "send.c" 184 LL_DEBUG "truncated ethernet packet" [];
  mk_call "shell.c" 149 LL_WARN "command exited with signal %i" [TInt];
  mk_call "shell.c" 151 LL_WARN "command exited with status %i" [TInt];
  mk_call "socket.c" 147 LL_ERROR "error protecting socket" [];
  mk_call "socket.c" 161 LL_ERROR "unable to bind to %L" [TBind; TStr];
  mk_call "socket.c" 161 LL_ERROR "unable to bind to %B on `%s'" [TBind; TStr];
  mk_call "socket.c" 166 LL_ERROR "unable to bind to %B" [TBind];
  mk_call "socket.c" 204 LL_INFO "bound to %B on `%s'" [TBind; TStr];
  mk_call "socket.c" 206 LL_INFO "bound to %B" [TBind];
  mk_call "socket.c" 238 LL_DEBUG "not opening an %s socket for peer %P (no bind address with matching address family)" [TStr; TPeer];
  mk_call "socket.c" 294 LL_DEBUG2 "error on socket bound to %B" [TBind];
  mk_call "status.c" 215 LL_ERROR "status socket already in use" [];
  mk_call "status.c" 218 LL_ERROR "unable to set status socket lock" [];
  mk_call "status.c" 245 LL_INFO "removing old status socket" [];
  mk_call "status.c" 267 LL_ERROR "unable to create status socket: the path `%s' already exists" [TStr];
  mk_call "verify.c" 40 LL_ERROR "verify command exited with signal %i" [TInt];
  mk_call "verify.c" 43 LL_DEBUG "verify command exited with status %i" [TInt];
  mk_call "verify.c" 98 LL_DEBUG "maximum number of verification processes reached" []
].
