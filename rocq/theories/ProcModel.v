(* Starting programs and waiting for them: os_unix.c 512-647 (exec, exec_info, exec_wait) and async_io.c
   757-833, 847-917 (spawn, exec_addenv).  Linux; one thread.  Memory is assumed to be there except in the
   copies that are checked.  The texts are C strings without their NUL unless a definition says otherwise. *)
From Verif Require Import Base StrModel FdModel.
Local Open Scope Z_scope.

Definition COMMA := 44.
Definition SEMI := 59.
Definition EQUALS := 61.

(* os_unix.c 605-613: the argument vector handed to execve; str_cat_ex joins command, "," and the arguments
   (none: only the first two) *)
Definition argv_of (command : bytes) (args : option bytes) : outcome (option (list bytes)) :=
  do r <- str_split [COMMA] (command ++ [COMMA] ++ match args with None => [] | Some a => a end);
  Ok (option_map words r).

(* os_unix.c 589-590: the environment; None is the NULL pointer *)
Definition env_of (env : option bytes) : outcome (option (list bytes)) :=
  match env with
  | None => Ok None
  | Some e =>
      do a <- str_has e [EQUALS];
      do b <- str_has e [SEMI];
      if a && b then do r <- str_split [SEMI] e; Ok (option_map words r) else Ok None
  end.
(* execve(2) on Linux: a NULL environment is an empty one *)
Definition given_env (env : option (list bytes)) : list bytes := match env with None => [] | Some l => l end.

(* async_io.c 813-833 exec_addenv.  [data] is the block, its length the size kept by the caller.
   snprintf writes at most 2047 bytes and a NUL into the 2048 bytes of buf (what earlier texts left behind
   its NUL is not modelled: it is only read when the length is beyond the buffer, which is UB anyway) and
   returns the untruncated length *)
Definition BUF := 2048%nat.
Definition pair_text (kv : bytes * bytes) : bytes := fst kv ++ [EQUALS] ++ snd kv ++ [SEMI].
Definition snprintf_buf (t : bytes) : bytes := firstn (BUF - 1) t ++ [0].
Definition add_pair (data : bytes) (kv : bytes * bytes) : outcome bytes :=
  let t := pair_text kv in
  if (length t <=? BUF)%nat then Ok (data ++ firstn (length t) (snprintf_buf t)) else UB.
Fixpoint exec_addenv (data : bytes) (l : list (bytes * bytes)) : outcome bytes :=
  match l with [] => Ok data | kv :: r => do d <- add_pair data kv; exec_addenv d r end.
(* reading a block as a C string: without a NUL inside, the read leaves the block *)
Definition as_text (block : bytes) : outcome bytes :=
  if existsb (fun c => c =? 0) block then Ok (until_nul block) else UB.

(* ---- processes ---- *)

(* what the kernel knows of a child *)
Inductive kid := Running | Exited (code : Z) | Killed (sig : Z).

(* the descriptor table (FdModel.v) with the two fields of each entry's process record that matter here, and
   the kernel's children that were not waited for *)
Record pst := { ptab : fst_; pdet : Z -> bool; pps : Z -> Z; kids : Z -> option kid }.

Definition zset {A} (f : Z -> A) (i : Z) (v : A) : Z -> A := fun j => if j =? i then v else f j.

(* os_unix.c 392-457 with the reset of the process record (437-449) *)
Definition new_fd (s : pst) (ty : nat) (fd des : Z) : outcome (pst * Z) :=
  do r <- fd_new 0 0 None (ptab s) ty fd des;
  let i := snd r in
  Ok ({| ptab := fst r; pdet := if i =? -1 then pdet s else zset (pdet s) i false;
         pps := if i =? -1 then pps s else zset (pps s) i (-1); kids := kids s |}, i).

(* os_unix.c 580-613, 512-526 exec with its exec_info: [ev] is what eventfd returned, [p] what vfork returned
   to the parent.  No free entry: the record before the table is written *)
Definition exec (s : pst) (detached : bool) (ev p : Z) : outcome (pst * Z) :=
  do r <- new_fd s FD_CHILD ev (-1);
  let '(s1, i) := r in
  if i =? -1 then UB
  else
    do t <- fd_set (ptab s1) i p;
    Ok ({| ptab := t; pdet := zset (pdet s1) i detached; pps := zset (pps s1) i p;
           kids := if 0 <? p then zset (kids s1) p (Some Running) else kids s1 |}, i).

(* what exec_wait leaves in errno when it returns -1 *)
Inductive werr := ETimedout | ENoChild.
(* os_unix.c 616-647: result, exit code stored if any.  A running child with a timeout other than 0 is waited
   for without end: [fin] is how it ends; Running: it does not, and the call does not return (Fuel).  EINTR
   only repeats the call *)
Definition code_of (k : kid) : Z := match k with Exited c => c | Killed g => - g | Running => 0 end.
Definition exec_wait (s : pst) (h timeout : Z) (fin : kid) : outcome (pst * (option Z + werr)) :=
  if (h <? 0) || (Z.of_nat (length (tab (ptab s))) <=? h) then UB
  else if pdet s h then Ok (s, inl None)
  else
    let p := pps s h in
    let reap k := Ok ({| ptab := fd_close (ptab s) h; pdet := pdet s; pps := pps s; kids := zset (kids s) p None |}, inl (Some (code_of k))) in
    match kids s p with
    | None => Ok (s, inr ENoChild)
    | Some Running => if timeout =? 0 then Ok (s, inr ETimedout) else match fin with Running => Fuel | k => reap k end
    | Some k => reap k
    end.

(* ---- spawn ---- *)

(* what the task of a spawned program does *)
Inductive act := AStart | ARegister (fd : Z) | AUnregister (fd : Z) | AClose (fd : Z) | AExit (status sig : Z) | AFailed.
(* the three pipes: read and write ends *)
Record pipes := { in_r : Z; in_w : Z; out_r : Z; out_w : Z; err_r : Z; err_w : Z }.

(* async_io.c 757-811 spawning.  [pid] is exec's result, [added] that of events_add, [waits] the successive
   results of exec_wait: Some k is 0 with the way it ended, None is -1 with ETIMEDOUT; when the list ends the
   wait fails in another way (no such child) *)
Fixpoint spawn_wait (waits : list (option kid)) (status : Z) : Z :=
  match waits with
  | [] => status
  | None :: r => spawn_wait r status
  | Some k :: _ => code_of k
  end.
Definition spawning (io exitf : bool) (p : pipes) (pid added : Z) (waits : list (option kid)) : list act :=
  let status := if io then added else 0 in
  [AStart] ++ (if io then [ARegister (out_w p)] else []) ++
  (if (status =? 0) && (0 <? pid) then
     let st := spawn_wait waits status in
     (if io then [AUnregister (out_w p); AClose (out_r p); AClose (out_w p); AClose (in_r p); AClose (in_w p)] else []) ++
     (if exitf then [AExit st st] else [])
   else [AFailed]).
(* async_io.c 847-903: the pipes opened for it: a third one when an environment is given *)
Definition opened_pipes (io env : bool) (p : pipes) : list Z :=
  if io then [in_r p; in_w p; out_r p; out_w p] ++ (if env then [err_r p; err_w p] else []) else [].

(* ---- the standard streams of the program ---- *)

(* a process's descriptors: the open file behind each number *)
Definition fdmap := Z -> option Z.
(* dup2(2): fails for a closed descriptor, does nothing when both are the same *)
Definition dup2 (f : fdmap) (a b : Z) : option fdmap :=
  match f a with None => None | Some x => Some (zset f b (Some x)) end.
Definition close_fd (f : fdmap) (a : Z) : fdmap := if a <? 0 then f else zset f a None.
(* os_unix.c 528-569, in the child: [i0 i1], [o0 o1], [e0 e1] are write_input, read_output and error; None: the
   child leaves with 255.  setsid is taken to succeed *)
Definition redirect1 (f : fdmap) (from to : Z) (spawned : bool) (other : Z) : option fdmap :=
  if from =? -1 then Some f
  else match dup2 f from to with
       | None => None
       | Some g => Some (if spawned then close_fd g other else g)
       end.
Definition redirect (spawned : bool) (i0 i1 o0 o1 e0 e1 : Z) (f : fdmap) : option fdmap :=
  match redirect1 f (if spawned then i0 else i1) 0 spawned i1 with
  | None => None
  | Some g => match redirect1 g o1 1 spawned o0 with
              | None => None
              | Some k => redirect1 k e1 2 spawned e0
              end
  end.
(* os_unix.c 586-596 with 443-448: the fields from the arguments of exec_info; 0 is taken for none *)
Definition info_fd (io : Z) : Z := if io =? 0 then -1 else io.

(* ---- what a spawned program writes ---- *)

(* pipe(7): [cap] bytes.  The pipe does not block (async_io.c 882), for the program either: a write takes what
   fits (Linux takes writes of up to 4096 bytes whole or not at all, and counts the capacity in pages).  The
   loop reports the write end as ready while the pipe is not full, and the callback, async_io.c 744-755, reads
   up to 32 KiB at the other end.  After the end of the program the pipe is closed (async_io.c 784-796) *)
Definition RD := (32 * 1024)%nat.
Inductive sstep := SWrite (b : bytes) | SPoll.
Record sout := { inpipe : bytes; told : list bytes; taken : bytes }.
Definition spawn_step (cap : nat) (s : sout) (x : sstep) : sout :=
  match x with
  | SWrite b => let w := firstn (cap - length (inpipe s)) b in {| inpipe := inpipe s ++ w; told := told s; taken := taken s ++ w |}
  | SPoll =>
      if (length (inpipe s) <? cap)%nat then
        match inpipe s with
        | [] => s
        | d => {| inpipe := skipn RD d; told := told s ++ [firstn RD d]; taken := taken s |}
        end
      else s
  end.
Definition spawn_out (cap : nat) (l : list sstep) : sout := fold_left (spawn_step cap) l {| inpipe := []; told := []; taken := [] |}.
