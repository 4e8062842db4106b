(* The assembly context switch: /repo/src/asm.c, the byte and word tables of
   coro_swap_function for i386 (13-26), Win64 (75-128), SystemV amd64
   (141-158) and AArch64 (241-272), and task_derive beside each of them.

   The tables are copied as numbers; a decoder for the instructions they use
   turns them into the small instruction set [ins], which is executed on a
   machine of registers and word-addressed memory.

   Simplifications: memory holds one value for each word address (8 bytes, 4
   on i386) and an access at an address that is not a multiple of the word
   is [UB] (the processor would allow it); every address is mapped; flags
   are not represented (no instruction of the tables reads them); the tables
   for ARM32, PPC64 and RISC-V are not modelled, because task_derive of these
   refers to a function coro_func that the program does not define. *)
From Coq Require Import ZArith List Bool.
From Verif Require Import Base.
Import ListNotations.
Open Scope Z_scope.

(* The machine.  [reg] numbers general registers as the processor does
   (amd64: 0 rax, 1 rcx, 2 rdx, 3 rbx, 4 rsp, 5 rbp, 6 rsi, 7 rdi, 8-15;
   AArch64: x0-x30, 31 is sp); [fp] holds the two 64-bit halves (low, high)
   of the vector registers; [tib] is the address of the thread information
   block of Windows (gs on amd64). *)
Record mach := mkM { reg : nat -> Z; fp : nat -> Z * Z; mem : Z -> Z; tib : Z }.

Definition rset (f : nat -> Z) (r : nat) (v : Z) : nat -> Z :=
  fun x => if Nat.eqb x r then v else f x.
Definition fset (f : nat -> Z * Z) (r : nat) (v : Z * Z) : nat -> Z * Z :=
  fun x => if Nat.eqb x r then v else f x.
Definition mset (f : Z -> Z) (a v : Z) : Z -> Z :=
  fun x => if x =? a then v else f x.

Definition with_reg (m : mach) (r : nat) (v : Z) : mach :=
  mkM (rset (reg m) r v) (fp m) (mem m) (tib m).
Definition with_fp (m : mach) (x : nat) (v : Z * Z) : mach :=
  mkM (reg m) (fset (fp m) x v) (mem m) (tib m).
Definition with_mem (m : mach) (a v : Z) : mach :=
  mkM (reg m) (fp m) (mset (mem m) a v) (tib m).

(* The instructions that the tables use.  [IStore b d s]: the word of
   register s to address b+d; [ILoad r b d]; [IStoreX al b d x]/[ILoadX]:
   16 bytes of a vector register, [al] requiring a multiple of 16;
   [IStoreD]/[ILoadD]: the low 8 bytes (a load clears the rest);
   [ILoadT r d]: the word at the thread information block + d;
   [IPop r s]: pop through the stack pointer s. *)
Inductive ins :=
| IStore (b : nat) (d : Z) (s : nat)
| ILoad (r b : nat) (d : Z)
| IPop (r s : nat)
| ISub (r : nat) (imm : Z)
| IMov (r s : nat)
| IStoreX (al : bool) (b : nat) (d : Z) (x : nat)
| ILoadX (al : bool) (x b : nat) (d : Z)
| IStoreD (b : nat) (d : Z) (x : nat)
| ILoadD (x b : nat) (d : Z)
| ILoadT (r : nat) (d : Z)
| IJmp (r : nat).

(* 2^(8w), the number of addresses of a machine of w-byte words. *)
Definition top_of (w : Z) : Z := 2 ^ (8 * w).

Definition ld (w : Z) (m : mach) (a : Z) : outcome Z :=
  if a mod w =? 0 then Ok (mem m a) else UB.
Definition st (w : Z) (m : mach) (a v : Z) : outcome mach :=
  if a mod w =? 0 then Ok (with_mem m a v) else UB.

Definition addr (w : Z) (m : mach) (b : nat) (d : Z) : Z :=
  (reg m b + d) mod top_of w.

Definition step (w : Z) (i : ins) (m : mach) : outcome mach :=
  match i with
  | IStore b d s => st w m (addr w m b d) (reg m s)
  | ILoad r b d => do v <- ld w m (addr w m b d); Ok (with_reg m r v)
  | IPop r s =>
    do v <- ld w m (addr w m s 0);
    let m1 := with_reg m s ((reg m s + w) mod top_of w) in
    Ok (with_reg m1 r v)
  | ISub r imm => Ok (with_reg m r ((reg m r - imm) mod top_of w))
  | IMov r s => Ok (with_reg m r (reg m s))
  | IStoreX al b d x =>
    let a := addr w m b d in
    if al && negb (a mod 16 =? 0) then UB
    else
      do m1 <- st w m a (fst (fp m x));
      st w m1 ((a + 8) mod top_of w) (snd (fp m x))
  | ILoadX al x b d =>
    let a := addr w m b d in
    if al && negb (a mod 16 =? 0) then UB
    else
      do lo <- ld w m a;
      do hi <- ld w m ((a + 8) mod top_of w);
      Ok (with_fp m x (lo, hi))
  | IStoreD b d x => st w m (addr w m b d) (fst (fp m x))
  | ILoadD x b d => do v <- ld w m (addr w m b d); Ok (with_fp m x (v, 0))
  | ILoadT r d => do v <- ld w m ((tib m + d) mod top_of w); Ok (with_reg m r v)
  | IJmp _ => UB
  end.

(* Runs to the first jump; the result is the machine and the address jumped
   to.  Falling off the decoded instructions is [UB] (the tables continue
   with zeros, which the decoder refuses). *)
Fixpoint exec (w : Z) (p : list ins) (m : mach) : outcome (mach * Z) :=
  match p with
  | [] => UB
  | IJmp r :: _ => Ok (m, reg m r)
  | i :: t => do m1 <- step w i m; exec w t m1
  end.

(* ---- decoding x86 ---- *)

Definition sext8 (b : Z) : Z := if b <? 128 then b else b - 256.

(* A memory operand [reg] or [reg+disp8] of a ModRM byte: base register,
   displacement, bytes after it.  No SIB forms, no disp32. *)
Definition x86_mem (xb md rm : Z) (rest : list Z) : option (nat * Z * list Z) :=
  if rm =? 4 then None
  else if md =? 0 then
    if rm =? 5 then None else Some (Z.to_nat (rm + 8 * xb), 0, rest)
  else if md =? 1 then
    match rest with
    | d :: r => Some (Z.to_nat (rm + 8 * xb), sext8 d, r)
    | [] => None
    end
  else None.

(* The opcodes after an optional REX prefix of bits W, R, B. *)
Definition x86_op (m64 : bool) (wide : bool) (xr xb : Z) (code : list Z)
  : option (ins * list Z) :=
  match code with
  | op :: rest =>
    if (0x58 <=? op) && (op <=? 0x5f) then
      Some (IPop (Z.to_nat (op - 0x58 + 8 * xb)) 4, rest)
    else
      match rest with
      | mr :: rest1 =>
        let md := mr / 64 in
        let rg := (mr / 8) mod 8 in
        let rm := mr mod 8 in
        let rgn := Z.to_nat (rg + 8 * xr) in
        if (op =? 0x89) && (negb m64 || wide) then
          match x86_mem xb md rm rest1 with
          | Some (b, d, r) => Some (IStore b d rgn, r)
          | None => None
          end
        else if (op =? 0x8b) && (negb m64 || wide) then
          match x86_mem xb md rm rest1 with
          | Some (b, d, r) => Some (ILoad rgn b d, r)
          | None => None
          end
        else if (op =? 0x83) && (negb m64 || wide) && (md =? 3) && (rg =? 5) then
          match rest1 with
          | i :: r => Some (ISub (Z.to_nat (rm + 8 * xb)) (sext8 i), r)
          | [] => None
          end
        else if (op =? 0xff) && (md =? 3) && (rg =? 4) then
          Some (IJmp (Z.to_nat (rm + 8 * xb)), rest1)
        else if (op =? 0x0f) && m64 then
          (* two-byte opcodes: [mr] is the second byte *)
          match rest1 with
          | mr2 :: rest2 =>
            let rg2 := Z.to_nat ((mr2 / 8) mod 8 + 8 * xr) in
            match x86_mem xb (mr2 / 64) (mr2 mod 8) rest2 with
            | Some (b, d, r) =>
              if mr =? 0x28 then Some (ILoadX true rg2 b d, r)
              else if mr =? 0x29 then Some (IStoreX true b d rg2, r)
              else if mr =? 0x10 then Some (ILoadX false rg2 b d, r)
              else if mr =? 0x11 then Some (IStoreX false b d rg2, r)
              else None
            | None => None
            end
          | [] => None
          end
        else None
      | [] => None
      end
  | [] => None
  end.

Definition x86_one (m64 : bool) (code : list Z) : option (ins * list Z) :=
  match code with
  | c :: rest =>
    if (c =? 0x65) && m64 then
      (* gs:[disp32], REX.W 8b with ModRM 0/r/4 and SIB 25 *)
      match rest with
      | rex :: op :: mr :: sib :: d0 :: d1 :: d2 :: d3 :: r =>
        if ((rex =? 0x48) || (rex =? 0x4c)) && (op =? 0x8b) && (mr / 64 =? 0)
           && (mr mod 8 =? 4) && (sib =? 0x25) then
          Some (ILoadT (Z.to_nat ((mr / 8) mod 8 + 8 * ((rex / 4) mod 2)))
                       (d0 + 256 * d1 + 65536 * d2 + 16777216 * d3), r)
        else None
      | _ => None
      end
    else if (0x40 <=? c) && (c <=? 0x4f) && m64 then
      x86_op m64 (8 <=? c mod 16) ((c / 4) mod 2) (c mod 2) rest
    else x86_op m64 false 0 0 code
  | [] => None
  end.

Fixpoint x86_dis (n : nat) (m64 : bool) (code : list Z) : option (list ins) :=
  match n with
  | O => None
  | S n' =>
    match x86_one m64 code with
    | None => None
    | Some (IJmp r, _) => Some [IJmp r]
    | Some (i, rest) =>
      match x86_dis n' m64 rest with
      | Some l => Some (i :: l)
      | None => None
      end
    end
  end.

(* ---- decoding AArch64 ---- *)

Definition sext7 (b : Z) : Z := if b <? 64 then b else b - 128.

(* add rd,rn,#0 (the mov of the stack pointer); stp/ldp of x registers and of
   d registers with a signed offset; str/ldr of an x register; br.  A pair is
   two accesses; register 31 as a transferred register (xzr) is refused. *)
Definition a64_one (i : Z) : option (list ins) :=
  let rt := i mod 32 in
  let rn := (i / 32) mod 32 in
  let rt2 := (i / 1024) mod 32 in
  let imm7 := 8 * sext7 ((i / 32768) mod 128) in
  let imm12 := (i / 1024) mod 4096 in
  let op := i / 4194304 in
  let t := Z.to_nat rt in
  let t2 := Z.to_nat rt2 in
  let n := Z.to_nat rn in
  if op =? 0x244 then if imm12 =? 0 then Some [IMov t n] else None
  else if op =? 0x2a4 then
    if (rt =? 31) || (rt2 =? 31) then None
    else Some [IStore n imm7 t; IStore n (imm7 + 8) t2]
  else if op =? 0x2a5 then
    if (rt =? 31) || (rt2 =? 31) || (rt =? rn) then None
    else Some [ILoad t n imm7; ILoad t2 n (imm7 + 8)]
  else if op =? 0x1b4 then
    Some [IStoreD n imm7 t; IStoreD n (imm7 + 8) t2]
  else if op =? 0x1b5 then
    Some [ILoadD t n imm7; ILoadD t2 n (imm7 + 8)]
  else if op =? 0x3e4 then
    if rt =? 31 then None else Some [IStore n (8 * imm12) t]
  else if op =? 0x3e5 then
    if rt =? 31 then None else Some [ILoad t n (8 * imm12)]
  else if (i - rn * 32 =? 0xd61f0000) then Some [IJmp n]
  else None.

Fixpoint a64_dis (code : list Z) : option (list ins) :=
  match code with
  | [] => Some []
  | i :: rest =>
    match a64_one i, a64_dis rest with
    | Some l, Some l' => Some (l ++ l')
    | _, _ => None
    end
  end.

(* ---- the tables ---- *)

(* asm.c 13-26 *)
Definition i386_code : list Z :=
  [0x89; 0x22; 0x8b; 0x21; 0x58; 0x89; 0x6a; 0x04; 0x89; 0x72; 0x08;
   0x89; 0x7a; 0x0c; 0x89; 0x5a; 0x10; 0x8b; 0x69; 0x04; 0x8b; 0x71; 0x08;
   0x8b; 0x79; 0x0c; 0x8b; 0x59; 0x10; 0xff; 0xe0].

(* asm.c 75-128, without NO_SSE and NO_TIB *)
Definition win64_code : list Z :=
  [0x48; 0x89; 0x22; 0x48; 0x8b; 0x21; 0x58; 0x48; 0x83; 0xe9; 0x80;
   0x48; 0x83; 0xea; 0x80; 0x48; 0x89; 0x6a; 0x88; 0x48; 0x89; 0x72; 0x90;
   0x48; 0x89; 0x7a; 0x98; 0x48; 0x89; 0x5a; 0xa0; 0x4c; 0x89; 0x62; 0xa8;
   0x4c; 0x89; 0x6a; 0xb0; 0x4c; 0x89; 0x72; 0xb8; 0x4c; 0x89; 0x7a; 0xc0;
   0x0f; 0x29; 0x72; 0xd0; 0x0f; 0x29; 0x7a; 0xe0;
   0x44; 0x0f; 0x29; 0x42; 0xf0; 0x44; 0x0f; 0x29; 0x0a;
   0x44; 0x0f; 0x29; 0x52; 0x10; 0x44; 0x0f; 0x29; 0x5a; 0x20;
   0x44; 0x0f; 0x29; 0x62; 0x30; 0x44; 0x0f; 0x29; 0x6a; 0x40;
   0x44; 0x0f; 0x29; 0x72; 0x50; 0x44; 0x0f; 0x29; 0x7a; 0x60;
   0x48; 0x8b; 0x69; 0x88; 0x48; 0x8b; 0x71; 0x90; 0x48; 0x8b; 0x79; 0x98;
   0x48; 0x8b; 0x59; 0xa0; 0x4c; 0x8b; 0x61; 0xa8; 0x4c; 0x8b; 0x69; 0xb0;
   0x4c; 0x8b; 0x71; 0xb8; 0x4c; 0x8b; 0x79; 0xc0;
   0x0f; 0x28; 0x71; 0xd0; 0x0f; 0x28; 0x79; 0xe0;
   0x44; 0x0f; 0x28; 0x41; 0xf0; 0x44; 0x0f; 0x28; 0x09;
   0x44; 0x0f; 0x28; 0x51; 0x10; 0x44; 0x0f; 0x28; 0x59; 0x20;
   0x44; 0x0f; 0x28; 0x61; 0x30; 0x44; 0x0f; 0x28; 0x69; 0x40;
   0x44; 0x0f; 0x28; 0x71; 0x50; 0x44; 0x0f; 0x28; 0x79; 0x60;
   0x65; 0x4c; 0x8b; 0x04; 0x25; 0x30; 0x00; 0x00; 0x00;
   0x41; 0x0f; 0x10; 0x40; 0x08; 0x0f; 0x29; 0x42; 0x70;
   0x0f; 0x28; 0x41; 0x70; 0x41; 0x0f; 0x11; 0x40; 0x08; 0xff; 0xe0].

(* asm.c 141-158 *)
Definition sysv_code : list Z :=
  [0x48; 0x89; 0x26; 0x48; 0x8b; 0x27; 0x58; 0x48; 0x89; 0x6e; 0x08;
   0x48; 0x89; 0x5e; 0x10; 0x4c; 0x89; 0x66; 0x18; 0x4c; 0x89; 0x6e; 0x20;
   0x4c; 0x89; 0x76; 0x28; 0x4c; 0x89; 0x7e; 0x30; 0x48; 0x8b; 0x6f; 0x08;
   0x48; 0x8b; 0x5f; 0x10; 0x4c; 0x8b; 0x67; 0x18; 0x4c; 0x8b; 0x6f; 0x20;
   0x4c; 0x8b; 0x77; 0x28; 0x4c; 0x8b; 0x7f; 0x30; 0xff; 0xe0].

(* asm.c 241-272; [win]: the four words of _WIN32 without NO_TIB *)
Definition a64_code (win : bool) : list Z :=
  [0x910003f0; 0xa9007830; 0xa9407810; 0x9100021f; 0xa9015033; 0xa9415013;
   0xa9025835; 0xa9425815; 0xa9036037; 0xa9436017; 0xa9046839; 0xa9446819;
   0xa905703b; 0xa945701b; 0xf900303d; 0xf940301d; 0x6d072428; 0x6d472408;
   0x6d082c2a; 0x6d482c0a; 0x6d09342c; 0x6d49340c; 0x6d0a3c2e; 0x6d4a3c0e]
  ++ (if win then [0xa940c650; 0xa90b4430; 0xa94b4410; 0xa900c650] else [])
  ++ [0xd61f03c0].

Definition run_code (w : Z) (p : option (list ins)) (m : mach) : outcome (mach * Z) :=
  match p with Some l => exec w l m | None => UB end.

(* coro_swap, called with its two arguments in the registers of the calling
   convention: the task to resume and the task to save. *)
Definition swap_i386 (m : mach) := run_code 4 (x86_dis 100 false i386_code) m.
Definition swap_win64 (m : mach) := run_code 8 (x86_dis 100 true win64_code) m.
Definition swap_sysv (m : mach) := run_code 8 (x86_dis 100 true sysv_code) m.
Definition swap_a64 (win : bool) (m : mach) := run_code 8 (a64_dis (a64_code win)) m.

(* ---- task_derive ---- *)

Definition align_down (a : Z) : Z := a - a mod 16.

(* asm.c 51-70 (i386, w = 4) and 173-196 (amd64, w = 8): the two words at the
   top of the stack and the stack pointer in the first word of the handle; on
   Win64 also the limits of the stack.  [memory] 0 writes nothing. *)
Definition derive_x86 (w : Z) (win : bool) (awaitable finish : Z)
  (m : mach) (memory size : Z) : outcome mach :=
  if memory =? 0 then Ok m
  else
    let M := top_of w in
    let stack_top := align_down (((memory + size) mod M - 32) mod M) in
    let p1 := (stack_top - w) mod M in
    do m1 <- st w m p1 finish;
    let p2 := (p1 - w) mod M in
    do m2 <- st w m1 p2 awaitable;
    do m3 <- st w m2 memory p2;
    if win then
      do m4 <- st w m3 (memory + 30 * 8) ((memory + size) mod M);
      st w m4 (memory + 31 * 8) memory
    else Ok m3.

(* asm.c 298-325 (AArch64) *)
Definition derive_a64 (win : bool) (task_func : Z)
  (m : mach) (memory size : Z) : outcome mach :=
  if memory =? 0 then Ok m
  else
    let M := top_of 8 in
    let p := align_down ((memory + size) mod M) in
    do m1 <- st 8 m memory p;
    do m2 <- st 8 m1 (memory + 8) task_func;
    do m3 <- st 8 m2 (memory + 12 * 8) p;
    if win then
      do m4 <- st 8 m3 (memory + 22 * 8) ((memory + size) mod M);
      st 8 m4 (memory + 23 * 8) memory
    else Ok m3.
