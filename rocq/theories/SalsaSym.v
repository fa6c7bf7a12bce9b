(** Symbolic execution of straight-line code of SalsaModel.  Words are indices into a table of shared terms.  For the proofs only. *)
From Verif Require Import Base SalsaModel SalsaSpec.
Local Open Scope N_scope.

Inductive node : Set :=
| NConst (n : N) | NAdd (a b : N) | NXor (a b : N) | NShl (k a : N) | NShr (k a : N) | NAdd64 (a b : N) | NShl64 (k a : N) | NShr64 (k a : N) | NLo (a : N).
Definition sem (f : N -> N) (n : node) : N :=
  match n with
  | NConst n => n
  | NAdd a b => add32 (f a) (f b)
  | NXor a b => N.lxor (f a) (f b)
  | NShl k a => shl32 k (f a)
  | NShr k a => shr32 k (f a)
  | NAdd64 a b => (f a + f b) mod W64
  | NShl64 k a => f a * 2 ^ k mod W64
  | NShr64 k a => f a / 2 ^ k
  | NLo a => f a mod W32
  end.
Definition kids_below (z : N) (n : node) : bool :=
  match n with
  | NConst _ => true
  | NAdd a b | NXor a b | NAdd64 a b => (a <? z) && (b <? z)
  | NShl _ a | NShr _ a | NShl64 _ a | NShr64 _ a | NLo a => a <? z
  end.
Definition node_eqb (p q : node) : bool :=
  match p, q with
  | NConst a, NConst b => a =? b
  | NAdd a b, NAdd c d | NXor a b, NXor c d | NShl a b, NShl c d | NShr a b, NShr c d
  | NAdd64 a b, NAdd64 c d | NShl64 a b, NShl64 c d | NShr64 a b, NShr64 c d => (b =? d) && (a =? c)
  | NLo a, NLo b => a =? b
  | _, _ => false
  end.
Record dag := Dag { tb : list (N * node); nx : N }.
Fixpoint find_node (n : node) (t : list (N * node)) : option N :=
  match t with [] => None | (k, n') :: r => if node_eqb n n' then Some k else find_node n r end.
Fixpoint find_key (i : N) (t : list (N * node)) : option node :=
  match t with [] => None | (k, n) :: r => if k =? i then Some n else find_key i r end.
Definition mk (n : node) (d : dag) : option (N * dag) :=
  match find_node n (tb d) with
  | Some k => Some (k, d)
  | None => if kids_below (nx d) n then Some (nx d, Dag ((nx d, n) :: tb d) (N.succ (nx d))) else None
  end.
Definition sorted (a b : N) : node := if a <=? b then NAdd a b else NAdd b a.

Inductive sval : Set := SP (o : object) (p : N) | SR (r : reg) | SE (i : N) | SQ (lo hi : N) | SW (i : N).
Record sst := Sst { dg : dag; sx : list (nat * quad N); sm : list ((object * N) * N); sg : list (reg * sval) }.
Notation "'let?' x := a 'in' b" := (obind a (fun x => b)) (at level 200, x pattern).
Fixpoint getx (i : nat) (l : list (nat * quad N)) : option (quad N) :=
  match l with [] => None | (j, q) :: r => if Nat.eqb i j then Some q else getx i r end.
Fixpoint getg (i : reg) (l : list (reg * sval)) : option sval :=
  match l with [] => None | (j, q) :: r => if reg_beq i j then Some q else getg i r end.
Fixpoint getm (o : object) (p : N) (l : list ((object * N) * N)) : option N :=
  match l with [] => None | ((o', p'), i) :: r => if (p =? p') && object_beq o o' then Some i else getm o p r end.
Fixpoint setm (o : object) (p v : N) (l : list ((object * N) * N)) : list ((object * N) * N) :=
  match l with [] => [] | ((o', p'), i) :: r => if (p =? p') && object_beq o o' then ((o', p'), v) :: r else ((o', p'), i) :: setm o p v r end.

Section Sym.
Context (win : object -> N).
Definition with_g (r : reg) (v : sval) (S : sst) : sst := Sst (dg S) (sx S) (sm S) ((r, v) :: sg S).
Definition with_x (i : nat) (q : quad N) (S : sst) : sst := Sst (dg S) ((i, q) :: sx S) (sm S) (sg S).
Definition with_d (d : dag) (S : sst) : sst := Sst d (sx S) (sm S) (sg S).
Definition saddr (disp : N) (b : reg) (S : sst) : option (object * N) := match getg b (sg S) with Some (SP o p) => Some (o, p + disp) | _ => None end.
Definition sload (o : object) (p : N) (S : sst) : option N := getm o p (sm S).
Definition sstore (o : object) (p v : N) (S : sst) : option sst :=
  match getm o p (sm S) with
  | Some _ => if writable o && (p + 4 <=? win o) && (p mod 4 =? 0) then Some (Sst (dg S) (sx S) (setm o p v (sm S)) (sg S)) else None
  | None => None
  end.
Definition smk (n : node) (S : sst) : option (N * sst) := let? (k, d) := mk n (dg S) in Some (k, with_d d S).
Definition qmk2 (f : N -> N -> node) (p q : quad N) (S : sst) : option (quad N * sst) :=
  match p, q with
  | Quad a b c d, Quad a' b' c' d' =>
      let? (k0, S) := smk (f a a') S in let? (k1, S) := smk (f b b') S in let? (k2, S) := smk (f c c') S in let? (k3, S) := smk (f d d') S in
      Some (Quad k0 k1 k2 k3, S)
  end.
Definition sloadx (o : object) (p : N) (S : sst) : option (quad N) :=
  let? a := sload o p S in let? b := sload o (p + 4) S in let? c := sload o (p + 8) S in let? d := sload o (p + 12) S in
  if aligned o p then Some (Quad a b c d) else None.
Definition exact (r : reg) (S : sst) : option N := match getg r (sg S) with Some (SE i) | Some (SW i) => Some i | _ => None end.
Definition low (r : reg) (S : sst) : option N := match getg r (sg S) with Some (SE i) | Some (SQ i _) => Some i | _ => None end.

Definition symexec (i : instr) (S : sst) : option sst :=
  match i with
  | MOV a d => let? v := getg a (sg S) in Some (with_g d v S)
  | MOVI n d => if n <? W32 then let? (k, S) := smk (NConst n) S in Some (with_g d (SE k) S) else None
  | ADDI n d => let? j := exact d S in let? (c, S) := smk (NConst n) S in let? (k, S) := smk (NAdd64 j c) S in Some (with_g d (SW k) S)
  | ADD a d => let? c := exact a S in let? j := exact d S in let? (k, S) := smk (NAdd64 j c) S in Some (with_g d (SW k) S)
  | SHL n d => let? j := exact d S in let? (k, S) := smk (NShl64 n j) S in Some (with_g d (SW k) S)
  | SHR n d => let? j := exact d S in let? (k, S) := smk (NShr64 n j) S in Some (with_g d (SW k) S)
  | STQ a disp b =>
      match getg a (sg S) with
      | Some (SQ lo hi) => let? (o, p) := saddr disp b S in let? S := sstore o p lo S in sstore o (p + 4) hi S
      | _ => None
      end
  | LDQ disp b d => let? (o, p) := saddr disp b S in let? lo := sload o p S in let? hi := sload o (p + 4) S in Some (with_g d (SQ lo hi) S)
  | LDL disp b d => let? (o, p) := saddr disp b S in let? k := sload o p S in Some (with_g d (SE k) S)
  | STL a disp b =>
      let? (o, p) := saddr disp b S in
      match getg a (sg S) with
      | Some (SE j) | Some (SQ j _) => sstore o p j S
      | Some (SW j) => let? (k, S) := smk (NLo j) S in sstore o p k S
      | _ => None
      end
  | XORL disp b d =>
      let? (o, p) := saddr disp b S in let? w := sload o p S in let? v := low d S in
      let? (k, S) := smk (NXor v w) S in Some (with_g d (SE k) S)
  | LDX disp b d => let? (o, p) := saddr disp b S in let? q := sloadx o p S in Some (with_x d q S)
  | STX a disp b =>
      let? (o, p) := saddr disp b S in let? q := getx a (sx S) in
      if aligned o p then
        match q with
        | Quad a b c d => let? S := sstore o p a S in let? S := sstore o (p + 4) b S in let? S := sstore o (p + 8) c S in sstore o (p + 12) d S
        end
      else None
  | MOVX a d => let? q := getx a (sx S) in Some (with_x d q S)
  | PSHUFD n a d => let? q := getx a (sx S) in Some (with_x d (shuffle n q) S)
  | PADDD a d => let? q := getx a (sx S) in let? p := getx d (sx S) in let? (k, S) := qmk2 sorted p q S in Some (with_x d k S)
  | PADDM disp b d => let? (o, a) := saddr disp b S in let? q := sloadx o a S in let? p := getx d (sx S) in
                      let? (k, S) := qmk2 sorted p q S in Some (with_x d k S)
  | PXOR a d => let? q := getx a (sx S) in let? p := getx d (sx S) in let? (k, S) := qmk2 NXor p q S in Some (with_x d k S)
  | PSLLD n d => let? p := getx d (sx S) in let? (k, S) := qmk2 (fun a _ => NShl n a) p p S in Some (with_x d k S)
  | PSRLD n d => let? p := getx d (sx S) in let? (k, S) := qmk2 (fun a _ => NShr n a) p p S in Some (with_x d k S)
  | MOVD a d => let? q := getx a (sx S) in match q with Quad lo hi _ _ => Some (with_g d (SQ lo hi) S) end
  | _ => None
  end.
Fixpoint symrun (l : list instr) (S : sst) : option sst := match l with [] => Some S | i :: r => let? S := symexec i S in symrun r S end.
End Sym.

(** Straight-line code of the processor *)
Fixpoint seq (size : object -> N) (l : list instr) (s : st) : option st :=
  match l with [] => Some s | i :: r => let? s := exec size i s in seq size r s end.

(** Terms *)
Inductive expr : Set :=
| EV (i : N) | EC (n : N) | EAdd (a b : expr) | EXor (a b : expr) | EShl (k : N) (a : expr) | EShr (k : N) (a : expr)
| EAdd64 (a b : expr) | EShl64 (k : N) (a : expr) | EShr64 (k : N) (a : expr) | ELo (a : expr).
Fixpoint eval (f : N -> N) (e : expr) : N :=
  match e with
  | EV i => f i
  | EC n => n
  | EAdd a b => add32 (eval f a) (eval f b)
  | EXor a b => N.lxor (eval f a) (eval f b)
  | EShl k a => shl32 k (eval f a)
  | EShr k a => shr32 k (eval f a)
  | EAdd64 a b => (eval f a + eval f b) mod W64
  | EShl64 k a => eval f a * 2 ^ k mod W64
  | EShr64 k a => eval f a / 2 ^ k
  | ELo a => eval f a mod W32
  end.
Fixpoint tree (n : nat) (t : list (N * node)) (i : N) : expr :=
  match n with
  | O => EV i
  | S n =>
      match find_key i t with
      | None => EV i
      | Some (NConst c) => EC c
      | Some (NAdd a b) => EAdd (tree n t a) (tree n t b)
      | Some (NXor a b) => EXor (tree n t a) (tree n t b)
      | Some (NShl k a) => EShl k (tree n t a)
      | Some (NShr k a) => EShr k (tree n t a)
      | Some (NAdd64 a b) => EAdd64 (tree n t a) (tree n t b)
      | Some (NShl64 k a) => EShl64 k (tree n t a)
      | Some (NShr64 k a) => EShr64 k (tree n t a)
      | Some (NLo a) => ELo (tree n t a)
      end
  end.
Fixpoint below (z : N) (e : expr) : bool :=
  match e with
  | EV i => i <? z
  | EC _ => true
  | EAdd a b | EXor a b | EAdd64 a b => below z a && below z b
  | EShl _ a | EShr _ a | EShl64 _ a | EShr64 _ a | ELo a => below z a
  end.

(** The specification's steps on the table *)
Definition smix (t : nat * nat * nat * N) (y : list N) (d : dag) : option (list N * dag) :=
  let '(i, j, k, n) := t in
  let? (a, d) := mk (sorted (nth j y 0) (nth k y 0)) d in
  let? (l, d) := mk (NShl n a) d in
  let? (p, d) := mk (NXor (nth i y 0) l) d in
  let? (r, d) := mk (NShr (32 - n) a) d in
  let? (q, d) := mk (NXor p r) d in
  Some (replace i q y, d).
Fixpoint smixes (l : list (nat * nat * nat * N)) (y : list N) (d : dag) : option (list N * dag) :=
  match l with [] => Some (y, d) | t :: r => let? (y, d) := smix t y d in smixes r y d end.
