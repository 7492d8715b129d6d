(** The instructions that keccak/avx2/KeccakP-1600-AVX2.s uses, as an interpreter.  Nothing here models a specific function of
    /repo; the meaning of the instructions is that of the Intel manual (volume 2), and is trusted.
    - Memory: three blocks, the Keccak state, the caller's data and the constants of the .s file.  A pointer is a block and an
      offset; an access outside the block, a store to the constants, arithmetic that mixes pointers otherwise than below, and
      a misaligned vmovdqa are faults (UB OutOfBounds).  Blocks do not overlap.  The stack is only used by push, pop, call and
      ret and is a list of its own; %rsp is not modelled.
    - The state is aligned to 32 bytes (KeccakP1600_stateAlignment, avx2/KeccakP-1600-SnP.h:28), the constants to 64
      (.align, KeccakP-1600-AVX2.s:1051-1055), the data not at all.
    - Flags: CF and ZF; None when the instruction leaves them to pointer arithmetic, where reading them is a fault. *)
From Coq Require Import Arith NArith ZArith List Bool String.
From Verif Require Import Prelude SpongeModel.
Import ListNotations.

Inductive reg : Set := RAX | RBX | RCX | RDX | RSI | RDI | R8 | R9 | R10.
Inductive blk : Set := Bst | Bda | Bro.
Inductive val : Set := Vi (n : N) | Vp (b : blk) (o : Z).
Inductive sval : Set := SV (v : val) | SR (pc : nat).
(** the quadwords of a ymm register, least significant first *)
Record v4 : Set := V4 { w0 : N; w1 : N; w2 : N; w3 : N }.
Record gprs : Set := mkG { rax : val; rbx : val; rcx : val; rdx : val; rsi : val; rdi : val; r8 : val; r9 : val; r10 : val }.

Inductive addr : Set :=
| Ab (r : reg) (d : Z)          (* d(%r) *)
| Ai (r i : reg)                (* (%r, %i) *)
| Arip (o : Z).                 (* label+d(%rip): offset o in the constants *)
Inductive size : Set := B1 | B4 | B8.
Inductive opnd : Set := Rg (r : reg) | Im (n : N) | Me (a : addr).
Inductive vopnd : Set := Ym (k : nat) | Vm (a : addr).
Inductive binop : Set := ADD | SUB | AND | XOR | CMP.
Inductive vop : Set := VXOR | VOR | VANDN | VADDQ.
Inductive cond : Set := CZ | CNZ | CB | CAE.
(** operands in AT&T order, the destination last *)
Inductive instr : Set :=
| Imov (s : size) (src dst : opnd)
| Ilea (a : addr) (r : reg)
| Ibin (o : binop) (s : size) (src dst : opnd)
| Iinc (r : reg)
| Idec (s : size) (r : reg)
| Ishr (n : N) (r : reg)
| Ishl (n : N) (r : reg)
| Icmovae (src dst : reg)
| Ipush (r : reg)
| Ipop (r : reg)
| Ijmp (l : string)
| Ijcc (c : cond) (l : string)
| Icall (l : string)
| Iret
| Vbin (o : vop) (src2 : vopnd) (src1 dst : nat)
| Vpshufd (imm : N) (src dst : nat)
| Vpermq (imm : N) (src dst : nat)
| Vpsrlq (imm : N) (src dst : nat)
| Vpsrldq8 (src dst : nat)                         (* vpsrldq $8 *)
| Vpsllvq (counts : addr) (src dst : nat)
| Vpsrlvq (counts : addr) (src dst : nat)
| Vpblendd (imm : N) (src2 : nat) (src1 dst : nat)
| Vmovdqa (a : addr) (dst : nat)                   (* from memory to ymm, aligned to 32 *)
| Vmovdqa_x (a : addr) (dst : nat)                 (* from memory to xmm, aligned to 16 *)
| Vmovdqa_st (src : nat) (a : addr)
| Vmovdqu (a : addr) (dst : nat)
| Vmovdqu_st (src : nat) (a : addr)
| Vpbroadcastq (a : addr) (dst : nat)
| Vmovq_st (src : nat) (a : addr)                  (* xmm to memory *)
| Vpcmpeqd_same (src dst : nat)                    (* vpcmpeqd of a register with itself *)
| Vpgatherdq (mask : nat) (base : reg) (idx dst : nat)
| Vzeroupper.
Inductive item : Set := Lb (l : string) | In (i : instr).

Record machine : Set := mkM { pc : nat; gp : gprs; ym : list v4; fc : option bool; fz : option bool; stk : list sval; mst : bytes; mda : bytes }.
Inductive outcome : Set := Next (M : machine) | Done (M : machine).
Notation fault := (UB OutOfBounds).

(** ** words *)
Definition w_add (a b : N) : N := ((a + b) mod 2 ^ 64)%N.
Definition w_sub (a b : N) : N := ((a + (2 ^ 64 - b)) mod 2 ^ 64)%N.
Definition w_xor (a b : N) : N := N.lxor a b.
Definition w_or (a b : N) : N := N.lor a b.
Definition w_andn (a b : N) : N := N.land (N.lnot a 64) b.
Definition w_shl (a c : N) : N := if (c <? 64)%N then (N.shiftl a c mod 2 ^ 64)%N else 0%N.
Definition w_shr (a c : N) : N := if (c <? 64)%N then N.shiftr a c else 0%N.
Definition w_lo (a : N) : N := (a mod 2 ^ 32)%N.
Definition w_hi (a : N) : N := (a / 2 ^ 32)%N.
Definition bits_of_size (s : size) : N := match s with B1 => 8 | B4 => 32 | B8 => 64 end.
Definition bytes_of_size (s : size) : nat := match s with B1 => 1 | B4 => 4 | B8 => 8 end.
(** a 64-bit word as a signed number *)
Definition sx (n : N) : Z := if (n <? 2 ^ 63)%N then Z.of_N n else (Z.of_N n - 2 ^ 64)%Z.
Definition sx32 (n : N) : Z := if (n <? 2 ^ 31)%N then Z.of_N n else (Z.of_N n - 2 ^ 32)%Z.

(** ** registers and memory *)
Definition getr (G : gprs) (r : reg) : val :=
  match r with RAX => rax G | RBX => rbx G | RCX => rcx G | RDX => rdx G | RSI => rsi G | RDI => rdi G | R8 => r8 G | R9 => r9 G | R10 => r10 G end.
Definition setr (G : gprs) (r : reg) (v : val) : gprs :=
  let '(mkG a b c d s t e f g) := G in
  match r with
  | RAX => mkG v b c d s t e f g | RBX => mkG a v c d s t e f g | RCX => mkG a b v d s t e f g
  | RDX => mkG a b c v s t e f g | RSI => mkG a b c d v t e f g | RDI => mkG a b c d s v e f g
  | R8 => mkG a b c d s t v f g | R9 => mkG a b c d s t e v g | R10 => mkG a b c d s t e f v
  end.
Definition mread (m : bytes) (o : Z) (n : nat) : res bytes := if (o <? 0)%Z then fault else read m (Z.to_nat o) n.
Definition mwrite (m : bytes) (o : Z) (d : bytes) : res bytes :=
  if (o <? 0)%Z then fault
  else if Z.to_nat o + List.length d <=? List.length m then Ok (firstn (Z.to_nat o) m ++ d ++ skipn (Z.to_nat o + List.length d) m) else fault.
Definition aligned (b : blk) (o a : Z) : bool :=
  match b with Bst => (a <=? 32)%Z | Bro => (a <=? 64)%Z | Bda => false end && (o mod a =? 0)%Z.

Section Prog.
Variables (prog : list item) (ro : bytes).

Definition block (M : machine) (b : blk) : bytes := match b with Bst => mst M | Bda => mda M | Bro => ro end.
Definition ea (M : machine) (a : addr) : res (blk * Z) :=
  match a with
  | Ab r d => match getr (gp M) r with Vp b o => Ok (b, o + d)%Z | Vi _ => fault end
  | Ai r i => match getr (gp M) r, getr (gp M) i with Vp b o, Vi n => Ok (b, o + sx n)%Z | _, _ => fault end
  | Arip o => Ok (Bro, o)
  end.
Definition load (M : machine) (a : addr) (n : nat) : res N := do (b, o) <- ea M a; do d <- mread (block M b) o n; Ok (le_word d).
Definition load_at (M : machine) (b : blk) (o : Z) : res N := do d <- mread (block M b) o 8; Ok (le_word d).
Definition load256 (M : machine) (a : addr) : res v4 :=
  do (b, o) <- ea M a;
  do x0 <- load_at M b o; do x1 <- load_at M b (o + 8); do x2 <- load_at M b (o + 16); do x3 <- load_at M b (o + 24); Ok (V4 x0 x1 x2 x3).
Definition load128 (M : machine) (a : addr) : res v4 :=
  do (b, o) <- ea M a; do x0 <- load_at M b o; do x1 <- load_at M b (o + 8); Ok (V4 x0 x1 0 0).
Definition store_at (M : machine) (b : blk) (o : Z) (d : bytes) : res machine :=
  let '(mkM p G y c z s ms md) := M in
  match b with
  | Bst => do m <- mwrite ms o d; Ok (mkM p G y c z s m md)
  | Bda => do m <- mwrite md o d; Ok (mkM p G y c z s ms m)
  | Bro => fault
  end.
Definition store (M : machine) (a : addr) (n : nat) (w : N) : res machine := do (b, o) <- ea M a; store_at M b o (le_bytes n w).
Definition store256 (M : machine) (a : addr) (v : v4) : res machine :=
  do (b, o) <- ea M a; store_at M b o (le_bytes 8 (w0 v) ++ le_bytes 8 (w1 v) ++ le_bytes 8 (w2 v) ++ le_bytes 8 (w3 v)).
Definition check_aligned (M : machine) (a : addr) (n : Z) : res unit := do (b, o) <- ea M a; if aligned b o n then Ok tt else fault.

Definition set_gp (M : machine) (G : gprs) : machine := let '(mkM p _ y c z s ms md) := M in mkM p G y c z s ms md.
Definition set_ym (M : machine) (y : list v4) : machine := let '(mkM p G _ c z s ms md) := M in mkM p G y c z s ms md.
Definition set_flags (M : machine) (c z : option bool) : machine := let '(mkM p G y _ _ s ms md) := M in mkM p G y c z s ms md.
Definition set_stk (M : machine) (s : list sval) : machine := let '(mkM p G y c z _ ms md) := M in mkM p G y c z s ms md.
Definition set_pc (M : machine) (p : nat) : machine := let '(mkM _ G y c z s ms md) := M in mkM p G y c z s ms md.

Definition low (s : size) (v : val) : res val :=
  match s, v with
  | B8, _ => Ok v
  | _, Vi n => Ok (Vi (n mod 2 ^ bits_of_size s)%N)
  | _, Vp _ _ => fault
  end.
Definition read_op (M : machine) (s : size) (o : opnd) : res val :=
  match o with
  | Rg r => low s (getr (gp M) r)
  | Im n => Ok (Vi n)
  | Me a => do n <- load M a (bytes_of_size s); Ok (Vi n)
  end.
(** a 32-bit result clears the upper half of the register, an 8-bit result leaves the other bits *)
Definition write_op (M : machine) (s : size) (o : opnd) (v : val) : res machine :=
  match o, s, v with
  | Rg r, B8, _ => Ok (set_gp M (setr (gp M) r v))
  | Rg r, B4, Vi n => Ok (set_gp M (setr (gp M) r (Vi n)))
  | Rg r, B1, Vi n => match getr (gp M) r with Vi u => Ok (set_gp M (setr (gp M) r (Vi (256 * (u / 256) + n)%N))) | Vp _ _ => fault end
  | Me a, _, Vi n => store M a (bytes_of_size s) n
  | _, _, _ => fault
  end.

(** the result of dst op src and the flags CF, ZF *)
Definition alu (o : binop) (s : size) (dst src : val) : res (val * option bool * option bool) :=
  let k := bits_of_size s in
  let flag_z n := Some (n =? 0)%N in
  match o, dst, src with
  | ADD, Vi a, Vi b => let n := ((a + b) mod 2 ^ k)%N in Ok (Vi n, Some (2 ^ k <=? a + b)%N, flag_z n)
  | ADD, Vp b u, Vi n | ADD, Vi n, Vp b u => match s with B8 => Ok (Vp b (u + sx n), None, None) | _ => fault end
  | (SUB | CMP), Vi a, Vi b => let n := ((a + (2 ^ k - b)) mod 2 ^ k)%N in Ok (Vi n, Some (a <? b)%N, Some (a =? b)%N)
  | SUB, Vp b u, Vi n => match s with B8 => Ok (Vp b (u - sx n), None, None) | _ => fault end
  | SUB, Vp Bda u, Vp Bda t => match s with B8 => Ok (Vi (Z.to_N ((u - t) mod 2 ^ 64)), None, None) | _ => fault end
  | AND, Vi a, Vi b => let n := N.land a b in Ok (Vi n, Some false, flag_z n)
  | XOR, Vi a, Vi b => let n := N.lxor a b in Ok (Vi n, Some false, flag_z n)
  | _, _, _ => fault
  end.
Definition holds (M : machine) (c : cond) : res bool :=
  match c, fc M, fz M with
  | CZ, _, Some z => Ok z
  | CNZ, _, Some z => Ok (negb z)
  | CB, Some b, _ => Ok b
  | CAE, Some b, _ => Ok (negb b)
  | _, _, _ => fault
  end.
Fixpoint find_label (p : list item) (l : string) : res nat :=
  match p with
  | [] => fault
  | Lb l' :: p' => if String.eqb l l' then Ok 0 else do n <- find_label p' l; Ok (S n)
  | In _ :: p' => do n <- find_label p' l; Ok (S n)
  end.

(** ** vectors *)
Definition qword (v : v4) (k : nat) : N := match k with 0 => w0 v | 1 => w1 v | 2 => w2 v | _ => w3 v end.
Definition vmap2 (f : N -> N -> N) (a b : v4) : v4 := V4 (f (w0 a) (w0 b)) (f (w1 a) (w1 b)) (f (w2 a) (w2 b)) (f (w3 a) (w3 b)).
Definition vop_fun (o : vop) : N -> N -> N := match o with VXOR => w_xor | VOR => w_or | VANDN => w_andn | VADDQ => w_add end.
(** two bits of an immediate *)
Definition imm2 (imm : N) (k : nat) : nat := N.to_nat ((imm / 4 ^ N.of_nat k) mod 4).
Definition permq (imm : N) (v : v4) : v4 := V4 (qword v (imm2 imm 0)) (qword v (imm2 imm 1)) (qword v (imm2 imm 2)) (qword v (imm2 imm 3)).
(** doubleword k of the 128-bit half whose quadwords are a and b *)
Definition dword (a b : N) (k : nat) : N := match k with 0 => w_lo a | 1 => w_hi a | 2 => w_lo b | _ => w_hi b end.
Definition two_dwords (a b : N) (i j : nat) : N :=
  match i, j with
  | 0, 1 => a
  | 2, 3 => b
  | _, _ => (dword a b i + 2 ^ 32 * dword a b j)%N
  end.
Definition pshufd (imm : N) (v : v4) : v4 :=
  let f a b k := two_dwords a b (imm2 imm k) (imm2 imm (k + 1)) in
  V4 (f (w0 v) (w1 v) 0) (f (w0 v) (w1 v) 2) (f (w2 v) (w3 v) 0) (f (w2 v) (w3 v) 2).
(** the doublewords of src2 where the bit of the immediate is set, else of src1 *)
Definition blend_q (lo hi : bool) (x1 x2 : N) : N :=
  match lo, hi with
  | true, true => x2
  | false, false => x1
  | true, false => (w_lo x2 + 2 ^ 32 * w_hi x1)%N
  | false, true => (w_lo x1 + 2 ^ 32 * w_hi x2)%N
  end.
Definition blendd (imm : N) (v2 v1 : v4) : v4 :=
  let b k := N.testbit imm k in
  V4 (blend_q (b 0%N) (b 1%N) (w0 v1) (w0 v2)) (blend_q (b 2%N) (b 3%N) (w1 v1) (w1 v2))
     (blend_q (b 4%N) (b 5%N) (w2 v1) (w2 v2)) (blend_q (b 6%N) (b 7%N) (w3 v1) (w3 v2)).
(** one element of vpgatherdq: nothing is read where the top bit of the mask is clear *)
Definition gather1 (M : machine) (b : blk) (o : Z) (m old : N) : res N := if N.testbit m 63 then load_at M b o else Ok old.

Definition gety (M : machine) (k : nat) : res v4 := get (ym M) k.
Definition sety (M : machine) (k : nat) (v : v4) : res machine := do y <- set (ym M) k v; Ok (set_ym M y).
Definition get_vop (M : machine) (o : vopnd) : res v4 := match o with Ym k => gety M k | Vm a => load256 M a end.

(** ** instructions; pc is advanced by step *)
Definition exec (i : instr) (M : machine) : res machine :=
  match i with
  | Imov s src dst => do v <- read_op M s src; write_op M s dst v
  | Ilea a r => do (b, o) <- ea M a; Ok (set_gp M (setr (gp M) r (Vp b o)))
  | Ibin o s src dst =>
      do b <- read_op M s src; do a <- read_op M s dst; do (v, c, z) <- alu o s a b;
      do M' <- (match o with CMP => Ok M | _ => write_op M s dst v end); Ok (set_flags M' c z)
  | Iinc r => do (v, _, z) <- alu ADD B8 (getr (gp M) r) (Vi 1); Ok (set_flags (set_gp M (setr (gp M) r v)) (fc M) z)
  | Idec s r => do a <- low s (getr (gp M) r); do (v, _, z) <- alu SUB s a (Vi 1); do M' <- write_op M s (Rg r) v;
      Ok (set_flags M' (fc M) (match v with Vi n => Some (n =? 0)%N | Vp _ _ => z end))
  | Ishr n r => match getr (gp M) r with Vi a => let w := N.shiftr a n in Ok (set_flags (set_gp M (setr (gp M) r (Vi w))) None (Some (w =? 0)%N)) | Vp _ _ => fault end
  | Ishl n r => match getr (gp M) r with Vi a => let w := (N.shiftl a n mod 2 ^ 64)%N in Ok (set_flags (set_gp M (setr (gp M) r (Vi w))) None (Some (w =? 0)%N)) | Vp _ _ => fault end
  | Icmovae src dst => do b <- holds M CAE; Ok (if b then set_gp M (setr (gp M) dst (getr (gp M) src)) else M)
  | Ipush r => Ok (set_stk M (SV (getr (gp M) r) :: stk M))
  | Ipop r => match stk M with SV v :: s => Ok (set_stk (set_gp M (setr (gp M) r v)) s) | _ => fault end
  | Vbin o s2 s1 d => do b <- get_vop M s2; do a <- gety M s1; sety M d (vmap2 (vop_fun o) a b)
  | Vpshufd imm s d => do a <- gety M s; sety M d (pshufd imm a)
  | Vpermq imm s d => do a <- gety M s; sety M d (permq imm a)
  | Vpsrlq imm s d => do a <- gety M s; sety M d (V4 (w_shr (w0 a) imm) (w_shr (w1 a) imm) (w_shr (w2 a) imm) (w_shr (w3 a) imm))
  | Vpsrldq8 s d => do a <- gety M s; sety M d (V4 (w1 a) 0 (w3 a) 0)
  | Vpsllvq c s d => do k <- load256 M c; do a <- gety M s; sety M d (vmap2 w_shl a k)
  | Vpsrlvq c s d => do k <- load256 M c; do a <- gety M s; sety M d (vmap2 w_shr a k)
  | Vpblendd imm s2 s1 d => do b <- gety M s2; do a <- gety M s1; sety M d (blendd imm b a)
  | Vmovdqa a d => do _ <- check_aligned M a 32; do v <- load256 M a; sety M d v
  | Vmovdqa_x a d => do _ <- check_aligned M a 16; do v <- load128 M a; sety M d v
  | Vmovdqa_st s a => do _ <- check_aligned M a 32; do v <- gety M s; store256 M a v
  | Vmovdqu a d => do v <- load256 M a; sety M d v
  | Vmovdqu_st s a => do v <- gety M s; store256 M a v
  | Vpbroadcastq a d => do n <- load M a 8; sety M d (V4 n n n n)
  | Vmovq_st s a => do v <- gety M s; store M a 8 (w0 v)
  | Vpcmpeqd_same _ d => let n := (2 ^ 64 - 1)%N in sety M d (V4 n n n n)
  | Vpgatherdq mk base idx d =>
      do m <- gety M mk; do x <- gety M idx; do v <- gety M d;
      do (b, o) <- ea M (Ab base 0);
      do a0 <- gather1 M b (o + sx32 (w_lo (w0 x))) (w0 m) (w0 v); do a1 <- gather1 M b (o + sx32 (w_hi (w0 x))) (w1 m) (w1 v);
      do a2 <- gather1 M b (o + sx32 (w_lo (w1 x))) (w2 m) (w2 v); do a3 <- gather1 M b (o + sx32 (w_hi (w1 x))) (w3 m) (w3 v);
      do M' <- sety M d (V4 a0 a1 a2 a3); sety M' mk (V4 0 0 0 0)
  | Vzeroupper => Ok (set_ym M (map (fun v => V4 (w0 v) (w1 v) 0 0) (ym M)))
  | Ijmp _ | Ijcc _ _ | Icall _ | Iret => fault
  end.
Definition step (M : machine) : res outcome :=
  do it <- get prog (pc M);
  match it with
  | Lb _ => Ok (Next (set_pc M (S (pc M))))
  | In (Ijmp l) => do p <- find_label prog l; Ok (Next (set_pc M p))
  | In (Ijcc c l) => do b <- holds M c; if b then (do p <- find_label prog l; Ok (Next (set_pc M p))) else Ok (Next (set_pc M (S (pc M))))
  | In (Icall l) => do p <- find_label prog l; Ok (Next (set_pc (set_stk M (SR (S (pc M)) :: stk M)) p))
  | In Iret => match stk M with SR p :: s => Ok (Next (set_pc (set_stk M s) p)) | [] => Ok (Done M) | _ => fault end
  | In i => do M' <- exec i M; Ok (Next (set_pc M' (S (pc M))))
  end.
Fixpoint run (fuel : nat) (M : machine) : res machine :=
  match fuel with
  | O => OutOfFuel
  | S f => do o <- step M; match o with Next M' => run f M' | Done M' => Ok M' end
  end.
(** call a function: rets come back here with an empty stack *)
Definition call (fuel : nat) (f : string) (G : gprs) (y : list v4) (ms md : bytes) : res machine :=
  do p <- find_label prog f; run fuel (mkM p G y None None [] ms md).
End Prog.
