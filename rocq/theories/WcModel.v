(* Programs started on Windows: os_windows.c 710-850 (os_exec_child, os_exec_info, exec_info, exec, spawn_io_thread),
   490-540 (os_iodispatch), 245-279 (events_free_fd) and async_io.c 744-811 (spawn_io, spawning).  Texts are C strings
   without their NUL unless a definition says otherwise. *)
From Verif Require Import Base StrModel.
Local Open Scope Z_scope.

Definition COMMA := 44.
Definition SPACE := 32.
Definition SEMI := 59.
Definition EQUALS := 61.
Definition EXE : bytes := [46; 101; 120; 101].  (* .exe *)
Definition BAT : bytes := [46; 98; 97; 116].    (* .bat *)
Definition MAX_PATH := 260%nat.

(* os_windows.c 807-809: the name of the program, cut by snprintf *)
Definition program (command : bytes) : outcome bytes :=
  do b <- str_has command BAT;
  do e <- (if b then Ok true else str_has command EXE);
  Ok (firstn (MAX_PATH - 1) (command ++ (if e then [] else EXE))).
(* os_windows.c 810-817: its command line; without arguments only the first two texts are joined *)
Definition cmdline (command : bytes) (args : option bytes) : outcome bytes :=
  do p <- program command;
  let t := p ++ [COMMA] ++ match args with None => [] | Some a => a end in
  do h <- str_has t [COMMA];
  if h then do r <- str_swap [COMMA] [SPACE] t; match r with Some b => Ok (until_nul b) | None => UB end
  else Ok t.

(* CreateProcessA: the environment is a block of texts one after the other, ended by an empty one *)
Fixpoint read_block (cur m : bytes) : outcome (list bytes) :=
  match m with
  | [] => UB
  | c :: r => if c =? 0 then match cur with [] => Ok [] | _ => do l <- read_block [] r; Ok (cur :: l) end
              else read_block (cur ++ [c]) r
  end.
(* os_windows.c 791-792 and 743-744: what the program gets; None is NULL, the environment of the starter.  The copy made
   by str_split_ex follows its pointers (a multiple of 8 bytes) in zeroed memory of even size (arrays.c 558-559). *)
Definition environment (env : option bytes) : outcome (option (list bytes)) :=
  match env with
  | None => Ok None
  | Some e =>
      do a <- str_has e [EQUALS];
      do b <- str_has e [SEMI];
      if a && b then
        do r <- str_split [SEMI] e;
        match r with
        | None => Ok None
        | Some (buf, _, _) => do l <- read_block [] (buf ++ repeat 0 (align2 (length buf) - length buf)); Ok (Some l)
        end
      else Ok None
  end.

(* ---- the output of a spawned program ---- *)
(* A thread reads the pipe into one buffer of 65536 + 2 bytes and posts the number of bytes; the loop takes the posts in
   order.  [buf]: None once freed; [posts]: numbers not yet taken; [told]: what the callback got; [used]: the entry
   of the handle table is in use. *)
Record chl := { buf : option bytes; posts : list nat; told : list bytes; used : bool; ends : nat }.
Inductive cev := Read (b : bytes) | Take | Wait (ended : bool).
Definition BUFLEN := Z.to_nat 65536.
(* os_windows.c 844-857: ReadFile gives at most the length of the buffer *)
Definition put_buf (m b : bytes) : bytes := b ++ [0] ++ skipn (length b + 1) m.
Definition cstep (s : chl) (e : cev) : outcome chl :=
  match e with
  | Read [] => Ok s
  | Read b => if (length b <=? BUFLEN)%nat then
                match buf s with
                | None => UB
                | Some m => Ok {| buf := Some (put_buf m b); posts := posts s ++ [length b]; told := told s; used := used s; ends := ends s |}
                end
              else Ok s
  (* os_windows.c 500-540: an entry no longer in use and no longer in a loop is passed over *)
  | Take => match posts s with
            | [] => Ok s
            | n :: r => if used s then
                match buf s with
                | None => UB
                | Some m => Ok {| buf := buf s; posts := r; told := told s ++ [firstn n m]; used := used s; ends := ends s |}
                end
                else Ok {| buf := buf s; posts := r; told := told s; used := used s; ends := ends s |}
            end
  (* async_io.c 779-806: the task looks whether the program has ended; then the entry and its buffer are freed (the
     thread is not waited for) and the exit callback is called *)
  | Wait ended => Ok (if used s && ended then {| buf := None; posts := posts s; told := told s; used := false; ends := S (ends s) |} else s)
  end.
Fixpoint crun (s : chl) (l : list cev) : outcome chl :=
  match l with [] => Ok s | e :: r => do s1 <- cstep s e; crun s1 r end.
Definition chl0 : chl := {| buf := Some (repeat 0 (BUFLEN + 2)); posts := []; told := []; used := true; ends := 0 |}.
(* async_io.c 765-777 when CreateProcess failed (os_windows.c 749-752 returns before the buffer and info->req are set):
   the output is watched all the same and the thread is started; its first read goes through NULL *)
Definition unstarted (io watched : bool) : outcome bool := if io then (if watched then UB else Ok false) else Ok false.
