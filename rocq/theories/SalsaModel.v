(** The assembly implementation of Salsa20 and Salsa20/12 for amd64: src/crypto/cipher/salsa20/xmm/salsa20_amd64_xmm6.s and
    src/crypto/cipher/salsa2012/xmm/salsa2012_amd64_xmm6.s (the functions fastd_salsa20_xmm_xor and fastd_salsa2012_xmm_xor), instruction by
    instruction, and the part of the processor that they use.  Line numbers are those of the first file.

    Memory consists of separate objects (the stack, the message, the place for the result, the key, the nonce), so the message must not overlap with the
    result; a pointer is an object with an offset.  The object of the stack begins at a multiple of 32; nothing is known about the addresses of the
    others.  Anything the processor or the objects do not allow (accesses out of bounds, writes to the message, the key or the nonce, misaligned
    movdqa, branches on flags that are not modelled) has no result. *)
From Verif Require Import Base.
Local Open Scope N_scope.

Inductive reg : Set := RAX | RCX | RDX | RSI | RDI | RSP | RBX | RBP | R8 | R9 | R10 | R11 | R12 | R13 | R14 | R15.
Inductive label : Set :=
| Lstart | Lbytesatleast256 | Lmainloop1 | Lbytesbetween1and255 | Lnocopy | Lmainloop2 | Lbytesatleast64 | Ldone | Lbytesatleast65.
Scheme Equality for reg.
Scheme Equality for label.

(** Operands are in the order of the source: source first.  A memory operand is a displacement and a register; [L] and [Q] are 32 and 64 bits, [X] is an
    xmm register *)
Inductive instr : Set :=
| MOV (s d : reg) | MOVI (n : N) (d : reg) | ANDI (n : N) (d : reg) | ADDI (n : N) (d : reg) | ADD (s d : reg) | SUB (s d : reg) | SUBI (n : N) (d : reg)
| SHL (n : N) (d : reg) | SHR (n : N) (d : reg) | XOR (s d : reg) | CMPI (n : N) (d : reg)
| STQ (s : reg) (disp : N) (b : reg) | LDQ (disp : N) (b d : reg) | LDL (disp : N) (b d : reg) | STL (s : reg) (disp : N) (b : reg)
| LEAQ (disp : N) (b d : reg) | XORL (disp : N) (b d : reg)
| LDX (disp : N) (b : reg) (d : nat) | STX (s : nat) (disp : N) (b : reg) | MOVX (s d : nat) | PSHUFD (n : N) (s d : nat)
| PADDD (s d : nat) | PADDM (disp : N) (b : reg) (d : nat) | PXOR (s d : nat) | PSLLD (n : N) (d : nat) | PSRLD (n : N) (d : nat) | MOVD (s : nat) (d : reg)
| REP_MOVSB | LABEL (l : label) | JBE (l : label) | JB (l : label) | JA (l : label) | JAE (l : label) | JMP (l : label) | RET.

(** * The processor *)

Inductive object : Set := Stack | In | Out | Key | Nonce.
Scheme Equality for object.
Inductive val : Set := VI (n : N) | VP (o : object) (off : N).
Inductive quad (A : Type) : Type := Quad (a b c d : A). (* the lowest lane first *)
Arguments Quad {A}.
Definition mem := object -> N -> byte.
(** [cf] and [zf] are None when they are not modelled *)
Record st := St { g : reg -> val; x : nat -> quad N; m : mem; cf : option bool; zf : option bool }.
Definition set_g (r : reg) (v : val) (s : st) : st := St (fun r' => if reg_beq r' r then v else g s r') (x s) (m s) (cf s) (zf s).
Definition set_x (i : nat) (q : quad N) (s : st) : st := St (g s) (fun i' => if Nat.eqb i' i then q else x s i') (m s) (cf s) (zf s).
Definition set_m (k : mem) (s : st) : st := St (g s) (x s) k (cf s) (zf s).
Definition set_f (c z : option bool) (s : st) : st := St (g s) (x s) (m s) c z.

(** ** Words *)
Definition W32 : N := 2 ^ 32.
Definition W64 : N := 2 ^ 64.
Definition add32 (a b : N) : N := (a + b) mod W32.
Definition shl32 (n a : N) : N := (a * 2 ^ n) mod W32.
Definition shr32 (n a : N) : N := a / 2 ^ n.
Definition qmap2 (f : N -> N -> N) (p q : quad N) : quad N :=
  match p, q with Quad a b c d, Quad a' b' c' d' => Quad (f a a') (f b b') (f c c') (f d d') end.
Definition qmap {A B : Type} (f : A -> B) (p : quad A) : quad B := match p with Quad a b c d => Quad (f a) (f b) (f c) (f d) end.
Definition lane {A : Type} (p : quad A) (i : N) : A :=
  match p with Quad a b c d => if i =? 0 then a else if i =? 1 then b else if i =? 2 then c else d end.
Definition shuffle {A : Type} (n : N) (p : quad A) : quad A :=
  Quad (lane p (n mod 4)) (lane p (n / 4 mod 4)) (lane p (n / 16 mod 4)) (lane p (n / 64 mod 4)).

(** ** Memory; bytes are taken modulo 256 *)
Definition byte_at (k : mem) (o : object) (a : N) : N := k o a mod 256.
Definition word_at (k : mem) (o : object) (a : N) : N :=
  byte_at k o a + 2 ^ 8 * byte_at k o (a + 1) + 2 ^ 16 * byte_at k o (a + 2) + 2 ^ 24 * byte_at k o (a + 3).
Definition put_word (k : mem) (o : object) (a v : N) : mem :=
  fun o' a' => if object_beq o' o && (a <=? a') && (a' <? a + 4) then v / 2 ^ (8 * (a' - a)) mod 256 else k o' a'.
Definition writable (o : object) : bool := match o with Stack | Out => true | _ => false end.

Section Processor.
Context (size : object -> N).

Definition load (k : mem) (o : object) (a : N) : option N := if a + 4 <=? size o then Some (word_at k o a) else None.
Definition store (k : mem) (o : object) (a v : N) : option mem := if writable o && (a + 4 <=? size o) then Some (put_word k o a v) else None.
Definition obind {A B : Type} (a : option A) (f : A -> option B) : option B := match a with Some y => f y | None => None end.
Notation "'let?' x := a 'in' b" := (obind a (fun x => b)) (at level 200, x pattern).
Definition int (s : st) (r : reg) : option N := match g s r with VI n => Some n | VP _ _ => None end.
(** The address of a memory operand *)
Definition addr (s : st) (disp : N) (b : reg) : option (object * N) := match g s b with VP o a => Some (o, a + disp) | VI _ => None end.
Definition aligned (o : object) (a : N) : bool := object_beq o Stack && (a mod 16 =? 0).
Definition loadx (k : mem) (o : object) (a : N) : option (quad N) :=
  let? w0 := load k o a in let? w1 := load k o (a + 4) in let? w2 := load k o (a + 8) in let? w3 := load k o (a + 12) in
  if aligned o a then Some (Quad w0 w1 w2 w3) else None.
Definition storex (k : mem) (o : object) (a : N) (q : quad N) : option mem :=
  match q with
  | Quad w0 w1 w2 w3 =>
      let? k := store k o a w0 in let? k := store k o (a + 4) w1 in let? k := store k o (a + 8) w2 in let? k := store k o (a + 12) w3 in
      if aligned o a then Some k else None
  end.
(** rep movsb with the direction flag clear, between different objects *)
Definition copy (k : mem) (src : object) (a : N) (dst : object) (b n : N) : mem :=
  fun o' a' => if object_beq o' dst && (b <=? a') && (a' <? b + n) then k src (a + (a' - b)) else k o' a'.

Definition unflag (s : st) : st := set_f None None s.
(** All instructions but branches *)
Definition exec (i : instr) (s : st) : option st :=
  match i with
  | MOV a d => Some (set_g d (g s a) s)
  | MOVI n d => Some (set_g d (VI n) s)
  | ANDI n d => match g s d with
                | VI v => Some (unflag (set_g d (VI (N.land v n)) s))
                | VP o a => if object_beq o Stack && (n =? 31) then Some (unflag (set_g d (VI (a mod 32)) s)) else None
                end
  | ADDI n d => match g s d with
                | VI v => Some (unflag (set_g d (VI ((v + n) mod W64)) s))
                | VP o a => Some (unflag (set_g d (VP o (a + n)) s))
                end
  | ADD a d => let? n := int s a in
               match g s d with
               | VI v => Some (unflag (set_g d (VI ((v + n) mod W64)) s))
               | VP o b => Some (unflag (set_g d (VP o (b + n)) s))
               end
  | SUB a d => let? n := int s a in
               match g s d with
               | VI v => Some (unflag (set_g d (VI ((v + W64 - n) mod W64)) s))
               | VP o b => if n <=? b then Some (unflag (set_g d (VP o (b - n)) s)) else None
               end
  | SUBI n d => let? v := int s d in Some (set_f (Some (v <? n)) (Some (v =? n)) (set_g d (VI ((v + W64 - n) mod W64)) s))
  | SHL n d => let? v := int s d in Some (unflag (set_g d (VI (v * 2 ^ n mod W64)) s))
  | SHR n d => let? v := int s d in Some (unflag (set_g d (VI (v / 2 ^ n)) s))
  | XOR a d => if reg_beq a d then Some (unflag (set_g d (VI 0) s))
               else let? v := int s a in let? w := int s d in Some (unflag (set_g d (VI (N.lxor v w)) s))
  | CMPI n d => let? v := int s d in Some (set_f (Some (v <? n)) (Some (v =? n)) s)
  | STQ a disp b => let? v := int s a in let? (o, e) := addr s disp b in
                    let? k := store (m s) o e (v mod W32) in let? k := store k o (e + 4) (v / W32) in Some (set_m k s)
  | LDQ disp b d => let? (o, e) := addr s disp b in
                    let? lo := load (m s) o e in let? hi := load (m s) o (e + 4) in Some (set_g d (VI (lo + W32 * hi)) s)
  | LDL disp b d => let? (o, e) := addr s disp b in let? v := load (m s) o e in Some (set_g d (VI v) s)
  | STL a disp b => let? v := int s a in let? (o, e) := addr s disp b in let? k := store (m s) o e (v mod W32) in Some (set_m k s)
  | LEAQ disp b d => let? (o, e) := addr s disp b in Some (set_g d (VP o e) s)
  | XORL disp b d => let? v := int s d in let? (o, e) := addr s disp b in let? w := load (m s) o e in
                     Some (unflag (set_g d (VI (N.lxor (v mod W32) w)) s))
  | LDX disp b d => let? (o, e) := addr s disp b in let? q := loadx (m s) o e in Some (set_x d q s)
  | STX a disp b => let? (o, e) := addr s disp b in let? k := storex (m s) o e (x s a) in Some (set_m k s)
  | MOVX a d => Some (set_x d (x s a) s)
  | PSHUFD n a d => Some (set_x d (shuffle n (x s a)) s)
  | PADDD a d => Some (set_x d (qmap2 add32 (x s d) (x s a)) s)
  | PADDM disp b d => let? (o, e) := addr s disp b in let? q := loadx (m s) o e in Some (set_x d (qmap2 add32 (x s d) q) s)
  | PXOR a d => Some (set_x d (qmap2 N.lxor (x s d) (x s a)) s)
  | PSLLD n d => Some (set_x d (qmap (shl32 n) (x s d)) s)
  | PSRLD n d => Some (set_x d (qmap (shr32 n) (x s d)) s)
  | MOVD a d => match x s a with Quad lo hi _ _ => Some (set_g d (VI (lo + W32 * hi)) s) end (* movq, 64 bits *)
  | REP_MOVSB => let? n := int s RCX in
                 match g s RSI, g s RDI with
                 | VP src a, VP dst b =>
                     if negb (object_beq src dst) && writable dst && (a + n <=? size src) && (b + n <=? size dst)
                     then Some (set_g RCX (VI 0) (set_g RSI (VP src (a + n)) (set_g RDI (VP dst (b + n)) (set_m (copy (m s) src a dst b n) s))))
                     else None
                 | _, _ => None
                 end
  | LABEL _ => Some s
  | _ => None
  end.

(** The condition of a branch *)
Definition branch (i : instr) (s : st) : option (label * option bool) :=
  match i with
  | JMP l => Some (l, Some true)
  | JB l => Some (l, cf s)
  | JAE l => Some (l, option_map negb (cf s))
  | JBE l => Some (l, let? c := cf s in let? z := zf s in Some (c || z))
  | JA l => Some (l, let? c := cf s in let? z := zf s in Some (negb (c || z)))
  | _ => None
  end.
(** What follows a label *)
Fixpoint after (l : label) (p : list instr) : option (list instr) :=
  match p with
  | [] => None
  | LABEL l' :: r => if label_beq l l' then Some r else after l r
  | _ :: r => after l r
  end.
Inductive outcome : Type := Done (s : st) | More (pc : list instr) (s : st) | Stuck.
Definition step (p pc : list instr) (s : st) : outcome :=
  match pc with
  | [] => Stuck
  | RET :: _ => Done s
  | i :: r =>
      match branch i s with
      | Some (l, Some true) => match after l p with Some r => More r s | None => Stuck end
      | Some (_, Some false) => More r s
      | Some (_, None) => Stuck
      | None => match exec i s with Some s => More r s | None => Stuck end
      end
  end.
Fixpoint run (n : nat) (p pc : list instr) (s : st) : outcome :=
  match n with
  | O => More pc s
  | S n => match step p pc s with More pc s => run n p pc s | o => o end
  end.
End Processor.

(** * The program *)

(** L343-346 *)
Definition c_entry : list instr :=
  [MOV RSP R11; ANDI 31 R11; ADDI 480 R11; SUB R11 RSP].
(** L351-406 *)
Definition c_save : list instr :=
  [STQ R11 352 RSP; STQ R12 360 RSP; STQ R13 368 RSP; STQ R14 376 RSP; STQ R15 384 RSP; STQ RBX 392 RSP; STQ RBP 400 RSP; MOV RDI RDI; MOV RSI RSI;
   MOV RDX R9; MOV RCX RDX; MOV R8 R10].
(** L411-415 *)
Definition c_cmp0 : list instr :=
  [CMPI 0 R9; JBE Ldone].
(** L419-419 *)
Definition c_start : list instr :=
  [LABEL Lstart].
(** L424-579 *)
Definition c_init : list instr :=
  [LDL 20 R10 RCX; LDL 0 R10 R8; LDL 0 RDX RAX; LDL 16 R10 R11; STL RCX 0 RSP; STL R8 4 RSP; STL RAX 8 RSP; STL R11 12 RSP; MOVI 0 RCX;
   LDL 24 R10 R8; LDL 4 R10 RAX; LDL 4 RDX RDX; STL RCX 16 RSP; STL R8 20 RSP; STL RAX 24 RSP; STL RDX 28 RSP; LDL 12 R10 RDX; MOVI 0 RCX;
   LDL 28 R10 R8; LDL 8 R10 RAX; STL RDX 32 RSP; STL RCX 36 RSP; STL R8 40 RSP; STL RAX 44 RSP; MOVI 1634760805 RDX; MOVI 857760878 RCX;
   MOVI 2036477234 R8; MOVI 1797285236 RAX; STL RDX 48 RSP; STL RCX 52 RSP; STL R8 56 RSP; STL RAX 60 RSP].
(** L584-588 *)
Definition c_cmp256 : list instr :=
  [CMPI 256 R9; JB Lbytesbetween1and255].
(** L593-748 *)
Definition c_spread : list instr :=
  [LDX 48 RSP 0; PSHUFD 85 0 1; PSHUFD 170 0 2; PSHUFD 255 0 3; PSHUFD 0 0 0; STX 1 64 RSP; STX 2 80 RSP; STX 3 96 RSP; STX 0 112 RSP; LDX 0 RSP 0;
   PSHUFD 170 0 1; PSHUFD 255 0 2; PSHUFD 0 0 3; PSHUFD 85 0 0; STX 1 128 RSP; STX 2 144 RSP; STX 3 160 RSP; STX 0 176 RSP; LDX 16 RSP 0;
   PSHUFD 255 0 1; PSHUFD 85 0 2; PSHUFD 170 0 0; STX 1 192 RSP; STX 2 208 RSP; STX 0 224 RSP; LDX 32 RSP 0; PSHUFD 0 0 1; PSHUFD 170 0 2;
   PSHUFD 255 0 0; STX 1 240 RSP; STX 2 256 RSP; STX 0 272 RSP].
(** L751-751 *)
Definition c_at256 : list instr :=
  [LABEL Lbytesatleast256].
(** L756-916 *)
Definition c_four : list instr :=
  [LDL 16 RSP RDX; LDL 36 RSP RCX; STL RDX 288 RSP; STL RCX 304 RSP; ADDI 1 RDX; SHL 32 RCX; ADD RCX RDX; MOV RDX RCX; SHR 32 RCX; STL RDX 292 RSP;
   STL RCX 308 RSP; ADDI 1 RDX; SHL 32 RCX; ADD RCX RDX; MOV RDX RCX; SHR 32 RCX; STL RDX 296 RSP; STL RCX 312 RSP; ADDI 1 RDX; SHL 32 RCX;
   ADD RCX RDX; MOV RDX RCX; SHR 32 RCX; STL RDX 300 RSP; STL RCX 316 RSP; ADDI 1 RDX; SHL 32 RCX; ADD RCX RDX; MOV RDX RCX; SHR 32 RCX;
   STL RDX 16 RSP; STL RCX 36 RSP; STQ R9 408 RSP].
(** L921-921 *)
Definition c_rounds1 (rounds : N) : list instr :=
  [MOVI rounds RDX].
(** L926-1001 *)
Definition c_load4 : list instr :=
  [LDX 64 RSP 0; LDX 80 RSP 1; LDX 96 RSP 2; LDX 256 RSP 3; LDX 272 RSP 4; LDX 128 RSP 5; LDX 144 RSP 6; LDX 176 RSP 7; LDX 192 RSP 8; LDX 208 RSP 9;
   LDX 224 RSP 10; LDX 304 RSP 11; LDX 112 RSP 12; LDX 160 RSP 13; LDX 240 RSP 14; LDX 288 RSP 15].
(** L1004-1004 *)
Definition c_label1 : list instr :=
  [LABEL Lmainloop1].
(** L1009-2204 *)
Definition c_loop1 : list instr :=
  [STX 1 320 RSP; STX 2 336 RSP; MOVX 13 1; PADDD 12 1; MOVX 1 2; PSLLD 7 1; PXOR 1 14; PSRLD 25 2; PXOR 2 14; MOVX 7 1; PADDD 0 1; MOVX 1 2;
   PSLLD 7 1; PXOR 1 11; PSRLD 25 2; PXOR 2 11; MOVX 12 1; PADDD 14 1; MOVX 1 2; PSLLD 9 1; PXOR 1 15; PSRLD 23 2; PXOR 2 15; MOVX 0 1; PADDD 11 1;
   MOVX 1 2; PSLLD 9 1; PXOR 1 9; PSRLD 23 2; PXOR 2 9; MOVX 14 1; PADDD 15 1; MOVX 1 2; PSLLD 13 1; PXOR 1 13; PSRLD 19 2; PXOR 2 13; MOVX 11 1;
   PADDD 9 1; MOVX 1 2; PSLLD 13 1; PXOR 1 7; PSRLD 19 2; PXOR 2 7; MOVX 15 1; PADDD 13 1; MOVX 1 2; PSLLD 18 1; PXOR 1 12; PSRLD 14 2; PXOR 2 12;
   LDX 320 RSP 1; STX 12 320 RSP; MOVX 9 2; PADDD 7 2; MOVX 2 12; PSLLD 18 2; PXOR 2 0; PSRLD 14 12; PXOR 12 0; MOVX 5 2; PADDD 1 2; MOVX 2 12;
   PSLLD 7 2; PXOR 2 3; PSRLD 25 12; PXOR 12 3; LDX 336 RSP 2; STX 0 336 RSP; MOVX 6 0; PADDD 2 0; MOVX 0 12; PSLLD 7 0; PXOR 0 4; PSRLD 25 12;
   PXOR 12 4; MOVX 1 0; PADDD 3 0; MOVX 0 12; PSLLD 9 0; PXOR 0 10; PSRLD 23 12; PXOR 12 10; MOVX 2 0; PADDD 4 0; MOVX 0 12; PSLLD 9 0; PXOR 0 8;
   PSRLD 23 12; PXOR 12 8; MOVX 3 0; PADDD 10 0; MOVX 0 12; PSLLD 13 0; PXOR 0 5; PSRLD 19 12; PXOR 12 5; MOVX 4 0; PADDD 8 0; MOVX 0 12; PSLLD 13 0;
   PXOR 0 6; PSRLD 19 12; PXOR 12 6; MOVX 10 0; PADDD 5 0; MOVX 0 12; PSLLD 18 0; PXOR 0 1; PSRLD 14 12; PXOR 12 1; LDX 320 RSP 0; STX 1 320 RSP;
   MOVX 4 1; PADDD 0 1; MOVX 1 12; PSLLD 7 1; PXOR 1 7; PSRLD 25 12; PXOR 12 7; MOVX 8 1; PADDD 6 1; MOVX 1 12; PSLLD 18 1; PXOR 1 2; PSRLD 14 12;
   PXOR 12 2; LDX 336 RSP 12; STX 2 336 RSP; MOVX 14 1; PADDD 12 1; MOVX 1 2; PSLLD 7 1; PXOR 1 5; PSRLD 25 2; PXOR 2 5; MOVX 0 1; PADDD 7 1;
   MOVX 1 2; PSLLD 9 1; PXOR 1 10; PSRLD 23 2; PXOR 2 10; MOVX 12 1; PADDD 5 1; MOVX 1 2; PSLLD 9 1; PXOR 1 8; PSRLD 23 2; PXOR 2 8; MOVX 7 1;
   PADDD 10 1; MOVX 1 2; PSLLD 13 1; PXOR 1 4; PSRLD 19 2; PXOR 2 4; MOVX 5 1; PADDD 8 1; MOVX 1 2; PSLLD 13 1; PXOR 1 14; PSRLD 19 2; PXOR 2 14;
   MOVX 10 1; PADDD 4 1; MOVX 1 2; PSLLD 18 1; PXOR 1 0; PSRLD 14 2; PXOR 2 0; LDX 320 RSP 1; STX 0 320 RSP; MOVX 8 0; PADDD 14 0; MOVX 0 2;
   PSLLD 18 0; PXOR 0 12; PSRLD 14 2; PXOR 2 12; MOVX 11 0; PADDD 1 0; MOVX 0 2; PSLLD 7 0; PXOR 0 6; PSRLD 25 2; PXOR 2 6; LDX 336 RSP 2;
   STX 12 336 RSP; MOVX 3 0; PADDD 2 0; MOVX 0 12; PSLLD 7 0; PXOR 0 13; PSRLD 25 12; PXOR 12 13; MOVX 1 0; PADDD 6 0; MOVX 0 12; PSLLD 9 0;
   PXOR 0 15; PSRLD 23 12; PXOR 12 15; MOVX 2 0; PADDD 13 0; MOVX 0 12; PSLLD 9 0; PXOR 0 9; PSRLD 23 12; PXOR 12 9; MOVX 6 0; PADDD 15 0; MOVX 0 12;
   PSLLD 13 0; PXOR 0 11; PSRLD 19 12; PXOR 12 11; MOVX 13 0; PADDD 9 0; MOVX 0 12; PSLLD 13 0; PXOR 0 3; PSRLD 19 12; PXOR 12 3; MOVX 15 0;
   PADDD 11 0; MOVX 0 12; PSLLD 18 0; PXOR 0 1; PSRLD 14 12; PXOR 12 1; MOVX 9 0; PADDD 3 0; MOVX 0 12; PSLLD 18 0; PXOR 0 2; PSRLD 14 12; PXOR 12 2;
   LDX 320 RSP 12; LDX 336 RSP 0].
(** L2209-2213 *)
Definition c_again1 : list instr :=
  [SUBI 2 RDX; JA Lmainloop1].
(** L2218-3498 *)
Definition c_out4 : list instr :=
  [PADDM 112 RSP 12; PADDM 176 RSP 7; PADDM 224 RSP 10; PADDM 272 RSP 4; MOVD 12 RDX; MOVD 7 RCX; MOVD 10 R8; MOVD 4 R9; PSHUFD 57 12 12;
   PSHUFD 57 7 7; PSHUFD 57 10 10; PSHUFD 57 4 4; XORL 0 RSI RDX; XORL 4 RSI RCX; XORL 8 RSI R8; XORL 12 RSI R9; STL RDX 0 RDI; STL RCX 4 RDI;
   STL R8 8 RDI; STL R9 12 RDI; MOVD 12 RDX; MOVD 7 RCX; MOVD 10 R8; MOVD 4 R9; PSHUFD 57 12 12; PSHUFD 57 7 7; PSHUFD 57 10 10; PSHUFD 57 4 4;
   XORL 64 RSI RDX; XORL 68 RSI RCX; XORL 72 RSI R8; XORL 76 RSI R9; STL RDX 64 RDI; STL RCX 68 RDI; STL R8 72 RDI; STL R9 76 RDI; MOVD 12 RDX;
   MOVD 7 RCX; MOVD 10 R8; MOVD 4 R9; PSHUFD 57 12 12; PSHUFD 57 7 7; PSHUFD 57 10 10; PSHUFD 57 4 4; XORL 128 RSI RDX; XORL 132 RSI RCX;
   XORL 136 RSI R8; XORL 140 RSI R9; STL RDX 128 RDI; STL RCX 132 RDI; STL R8 136 RDI; STL R9 140 RDI; MOVD 12 RDX; MOVD 7 RCX; MOVD 10 R8;
   MOVD 4 R9; XORL 192 RSI RDX; XORL 196 RSI RCX; XORL 200 RSI R8; XORL 204 RSI R9; STL RDX 192 RDI; STL RCX 196 RDI; STL R8 200 RDI; STL R9 204 RDI;
   PADDM 240 RSP 14; PADDM 64 RSP 0; PADDM 128 RSP 5; PADDM 192 RSP 8; MOVD 14 RDX; MOVD 0 RCX; MOVD 5 R8; MOVD 8 R9; PSHUFD 57 14 14; PSHUFD 57 0 0;
   PSHUFD 57 5 5; PSHUFD 57 8 8; XORL 16 RSI RDX; XORL 20 RSI RCX; XORL 24 RSI R8; XORL 28 RSI R9; STL RDX 16 RDI; STL RCX 20 RDI; STL R8 24 RDI;
   STL R9 28 RDI; MOVD 14 RDX; MOVD 0 RCX; MOVD 5 R8; MOVD 8 R9; PSHUFD 57 14 14; PSHUFD 57 0 0; PSHUFD 57 5 5; PSHUFD 57 8 8; XORL 80 RSI RDX;
   XORL 84 RSI RCX; XORL 88 RSI R8; XORL 92 RSI R9; STL RDX 80 RDI; STL RCX 84 RDI; STL R8 88 RDI; STL R9 92 RDI; MOVD 14 RDX; MOVD 0 RCX; MOVD 5 R8;
   MOVD 8 R9; PSHUFD 57 14 14; PSHUFD 57 0 0; PSHUFD 57 5 5; PSHUFD 57 8 8; XORL 144 RSI RDX; XORL 148 RSI RCX; XORL 152 RSI R8; XORL 156 RSI R9;
   STL RDX 144 RDI; STL RCX 148 RDI; STL R8 152 RDI; STL R9 156 RDI; MOVD 14 RDX; MOVD 0 RCX; MOVD 5 R8; MOVD 8 R9; XORL 208 RSI RDX;
   XORL 212 RSI RCX; XORL 216 RSI R8; XORL 220 RSI R9; STL RDX 208 RDI; STL RCX 212 RDI; STL R8 216 RDI; STL R9 220 RDI; PADDM 288 RSP 15;
   PADDM 304 RSP 11; PADDM 80 RSP 1; PADDM 144 RSP 6; MOVD 15 RDX; MOVD 11 RCX; MOVD 1 R8; MOVD 6 R9; PSHUFD 57 15 15; PSHUFD 57 11 11;
   PSHUFD 57 1 1; PSHUFD 57 6 6; XORL 32 RSI RDX; XORL 36 RSI RCX; XORL 40 RSI R8; XORL 44 RSI R9; STL RDX 32 RDI; STL RCX 36 RDI; STL R8 40 RDI;
   STL R9 44 RDI; MOVD 15 RDX; MOVD 11 RCX; MOVD 1 R8; MOVD 6 R9; PSHUFD 57 15 15; PSHUFD 57 11 11; PSHUFD 57 1 1; PSHUFD 57 6 6; XORL 96 RSI RDX;
   XORL 100 RSI RCX; XORL 104 RSI R8; XORL 108 RSI R9; STL RDX 96 RDI; STL RCX 100 RDI; STL R8 104 RDI; STL R9 108 RDI; MOVD 15 RDX; MOVD 11 RCX;
   MOVD 1 R8; MOVD 6 R9; PSHUFD 57 15 15; PSHUFD 57 11 11; PSHUFD 57 1 1; PSHUFD 57 6 6; XORL 160 RSI RDX; XORL 164 RSI RCX; XORL 168 RSI R8;
   XORL 172 RSI R9; STL RDX 160 RDI; STL RCX 164 RDI; STL R8 168 RDI; STL R9 172 RDI; MOVD 15 RDX; MOVD 11 RCX; MOVD 1 R8; MOVD 6 R9;
   XORL 224 RSI RDX; XORL 228 RSI RCX; XORL 232 RSI R8; XORL 236 RSI R9; STL RDX 224 RDI; STL RCX 228 RDI; STL R8 232 RDI; STL R9 236 RDI;
   PADDM 160 RSP 13; PADDM 208 RSP 9; PADDM 256 RSP 3; PADDM 96 RSP 2; MOVD 13 RDX; MOVD 9 RCX; MOVD 3 R8; MOVD 2 R9; PSHUFD 57 13 13; PSHUFD 57 9 9;
   PSHUFD 57 3 3; PSHUFD 57 2 2; XORL 48 RSI RDX; XORL 52 RSI RCX; XORL 56 RSI R8; XORL 60 RSI R9; STL RDX 48 RDI; STL RCX 52 RDI; STL R8 56 RDI;
   STL R9 60 RDI; MOVD 13 RDX; MOVD 9 RCX; MOVD 3 R8; MOVD 2 R9; PSHUFD 57 13 13; PSHUFD 57 9 9; PSHUFD 57 3 3; PSHUFD 57 2 2; XORL 112 RSI RDX;
   XORL 116 RSI RCX; XORL 120 RSI R8; XORL 124 RSI R9; STL RDX 112 RDI; STL RCX 116 RDI; STL R8 120 RDI; STL R9 124 RDI; MOVD 13 RDX; MOVD 9 RCX;
   MOVD 3 R8; MOVD 2 R9; PSHUFD 57 13 13; PSHUFD 57 9 9; PSHUFD 57 3 3; PSHUFD 57 2 2; XORL 176 RSI RDX; XORL 180 RSI RCX; XORL 184 RSI R8;
   XORL 188 RSI R9; STL RDX 176 RDI; STL RCX 180 RDI; STL R8 184 RDI; STL R9 188 RDI; MOVD 13 RDX; MOVD 9 RCX; MOVD 3 R8; MOVD 2 R9;
   XORL 240 RSI RDX; XORL 244 RSI RCX; XORL 248 RSI R8; XORL 252 RSI R9; STL RDX 240 RDI; STL RCX 244 RDI; STL R8 248 RDI; STL R9 252 RDI;
   LDQ 408 RSP R9].
(** L3503-3531 *)
Definition c_next4 : list instr :=
  [SUBI 256 R9; ADDI 256 RSI; ADDI 256 RDI; CMPI 256 R9; JAE Lbytesatleast256; CMPI 0 R9; JBE Ldone].
(** L3535-3572 *)
Definition c_below256 : list instr :=
  [LABEL Lbytesbetween1and255; CMPI 64 R9; JAE Lnocopy; MOV RDI RDX; LEAQ 416 RSP RDI; MOV R9 RCX; REP_MOVSB; LEAQ 416 RSP RDI; LEAQ 416 RSP RSI].
(** L3576-3576 *)
Definition c_nocopy : list instr :=
  [LABEL Lnocopy].
(** L3581-3606 *)
Definition c_load1 : list instr :=
  [STQ R9 408 RSP; LDX 48 RSP 0; LDX 0 RSP 1; LDX 16 RSP 2; LDX 32 RSP 3; MOVX 1 4].
(** L3611-3611 *)
Definition c_rounds2 (rounds : N) : list instr :=
  [MOVI rounds RCX].
(** L3614-3614 *)
Definition c_label2 : list instr :=
  [LABEL Lmainloop2].
(** L3619-4194 *)
Definition c_loop2a : list instr :=
  [PADDD 0 4; MOVX 0 5; MOVX 4 6; PSLLD 7 4; PSRLD 25 6; PXOR 4 3; PXOR 6 3; PADDD 3 5; MOVX 3 4; MOVX 5 6; PSLLD 9 5; PSRLD 23 6; PXOR 5 2;
   PSHUFD 147 3 3; PXOR 6 2; PADDD 2 4; MOVX 2 5; MOVX 4 6; PSLLD 13 4; PSRLD 19 6; PXOR 4 1; PSHUFD 78 2 2; PXOR 6 1; PADDD 1 5; MOVX 3 4; MOVX 5 6;
   PSLLD 18 5; PSRLD 14 6; PXOR 5 0; PSHUFD 57 1 1; PXOR 6 0; PADDD 0 4; MOVX 0 5; MOVX 4 6; PSLLD 7 4; PSRLD 25 6; PXOR 4 1; PXOR 6 1; PADDD 1 5;
   MOVX 1 4; MOVX 5 6; PSLLD 9 5; PSRLD 23 6; PXOR 5 2; PSHUFD 147 1 1; PXOR 6 2; PADDD 2 4; MOVX 2 5; MOVX 4 6; PSLLD 13 4; PSRLD 19 6; PXOR 4 3;
   PSHUFD 78 2 2; PXOR 6 3; PADDD 3 5; MOVX 1 4; MOVX 5 6; PSLLD 18 5; PSRLD 14 6; PXOR 5 0; PSHUFD 57 3 3; PXOR 6 0; PADDD 0 4; MOVX 0 5; MOVX 4 6;
   PSLLD 7 4; PSRLD 25 6; PXOR 4 3; PXOR 6 3; PADDD 3 5; MOVX 3 4; MOVX 5 6; PSLLD 9 5; PSRLD 23 6; PXOR 5 2; PSHUFD 147 3 3; PXOR 6 2; PADDD 2 4;
   MOVX 2 5; MOVX 4 6; PSLLD 13 4; PSRLD 19 6; PXOR 4 1; PSHUFD 78 2 2; PXOR 6 1; PADDD 1 5; MOVX 3 4; MOVX 5 6; PSLLD 18 5; PSRLD 14 6; PXOR 5 0;
   PSHUFD 57 1 1; PXOR 6 0; PADDD 0 4; MOVX 0 5; MOVX 4 6; PSLLD 7 4; PSRLD 25 6; PXOR 4 1; PXOR 6 1; PADDD 1 5; MOVX 1 4; MOVX 5 6; PSLLD 9 5;
   PSRLD 23 6; PXOR 5 2; PSHUFD 147 1 1; PXOR 6 2; PADDD 2 4; MOVX 2 5; MOVX 4 6; PSLLD 13 4; PSRLD 19 6; PXOR 4 3; PSHUFD 78 2 2; PXOR 6 3].
(** L4199-4199 *)
Definition c_sub4 : list instr :=
  [SUBI 4 RCX].
(** L4204-4244 *)
Definition c_loop2b : list instr :=
  [PADDD 3 5; MOVX 1 4; MOVX 5 6; PSLLD 18 5; PXOR 7 7; PSRLD 14 6; PXOR 5 0; PSHUFD 57 3 3; PXOR 6 0].
(** L4248-4248 *)
Definition c_again2 : list instr :=
  [JA Lmainloop2].
(** L4253-4618 *)
Definition c_out1 : list instr :=
  [PADDM 48 RSP 0; PADDM 0 RSP 1; PADDM 16 RSP 2; PADDM 32 RSP 3; MOVD 0 RCX; MOVD 1 R8; MOVD 2 R9; MOVD 3 RAX; PSHUFD 57 0 0; PSHUFD 57 1 1;
   PSHUFD 57 2 2; PSHUFD 57 3 3; XORL 0 RSI RCX; XORL 48 RSI R8; XORL 32 RSI R9; XORL 16 RSI RAX; STL RCX 0 RDI; STL R8 48 RDI; STL R9 32 RDI;
   STL RAX 16 RDI; MOVD 0 RCX; MOVD 1 R8; MOVD 2 R9; MOVD 3 RAX; PSHUFD 57 0 0; PSHUFD 57 1 1; PSHUFD 57 2 2; PSHUFD 57 3 3; XORL 20 RSI RCX;
   XORL 4 RSI R8; XORL 52 RSI R9; XORL 36 RSI RAX; STL RCX 20 RDI; STL R8 4 RDI; STL R9 52 RDI; STL RAX 36 RDI; MOVD 0 RCX; MOVD 1 R8; MOVD 2 R9;
   MOVD 3 RAX; PSHUFD 57 0 0; PSHUFD 57 1 1; PSHUFD 57 2 2; PSHUFD 57 3 3; XORL 40 RSI RCX; XORL 24 RSI R8; XORL 8 RSI R9; XORL 56 RSI RAX;
   STL RCX 40 RDI; STL R8 24 RDI; STL R9 8 RDI; STL RAX 56 RDI; MOVD 0 RCX; MOVD 1 R8; MOVD 2 R9; MOVD 3 RAX; XORL 60 RSI RCX; XORL 44 RSI R8;
   XORL 28 RSI R9; XORL 12 RSI RAX; STL RCX 60 RDI; STL R8 44 RDI; STL R9 28 RDI; STL RAX 12 RDI; LDQ 408 RSP R9; LDL 16 RSP RCX; LDL 36 RSP R8;
   ADDI 1 RCX; SHL 32 R8; ADD R8 RCX; MOV RCX R8; SHR 32 R8; STL RCX 16 RSP; STL R8 36 RSP].
(** L4623-4653 *)
Definition c_next1 : list instr :=
  [CMPI 64 R9; JA Lbytesatleast65; JAE Lbytesatleast64; MOV RDI RSI; MOV RDX RDI; MOV R9 RCX; REP_MOVSB; LABEL Lbytesatleast64].
(** L4657-4657 *)
Definition c_done : list instr :=
  [LABEL Ldone].
(** L4662-4692 *)
Definition c_restore : list instr :=
  [LDQ 352 RSP R11; LDQ 360 RSP R12; LDQ 368 RSP R13; LDQ 376 RSP R14; LDQ 384 RSP R15; LDQ 392 RSP RBX; LDQ 400 RSP RBP].
(** L4695-4698 *)
Definition c_ret : list instr :=
  [ADD R11 RSP; XOR RAX RAX; XOR RDX RDX; RET].
(** L4701-4720 *)
Definition c_at65 : list instr :=
  [LABEL Lbytesatleast65; SUBI 64 R9; ADDI 64 RDI; ADDI 64 RSI; JMP Lbytesbetween1and255].
(** The whole program; [rounds] is 20 in salsa20_amd64_xmm6.s and 12 in salsa2012_amd64_xmm6.s, which do not differ otherwise *)
Definition program (rounds : N) : list instr :=
  c_entry ++ c_save ++ c_cmp0 ++ c_start ++ c_init ++ c_cmp256 ++
  c_spread ++ c_at256 ++ c_four ++ c_rounds1 rounds ++ c_load4 ++ c_label1 ++
  c_loop1 ++ c_again1 ++ c_out4 ++ c_next4 ++ c_below256 ++ c_nocopy ++
  c_load1 ++ c_rounds2 rounds ++ c_label2 ++ c_loop2a ++ c_sub4 ++ c_loop2b ++
  c_again2 ++ c_out1 ++ c_next1 ++ c_done ++ c_restore ++ c_ret ++
  c_at65.
