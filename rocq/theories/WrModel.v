(* Port handles of the Windows poller and the references that keep a port alive: /repo/src/wepoll.c 516-647
   (epoll_create, epoll_close and the frame of epoll_ctl and epoll_wait), 1072-1124 (port_new, port_close), 1202-1215 (the
   handle a wait is made on), 1430-1433, 1506-1572 (reflock), 1891-1957 (ts_tree).
   Threads interleave between any two atomic operations and between the sections under the lock of the tree, which is
   held exclusively to add and remove and shared to find and refer.  A port is its address; addresses and handle
   values are given again once free.  Simplifications: the tree is the map of C112; the inside of a port is that
   of C113-C116, here only whether it is used; long has 32 bits (unsigned, the masks are the same); a failed
   assertion is UB; CloseHandle of an open handle works; at most N threads. *)
Require Import Verif.Base.
Require Import List ZArith Bool.
Import ListNotations.
Open Scope Z_scope.

(* 1506-1510 *)
Definition REF := 1.
Definition REF_MASK := 268435455.
Definition DESTROY := 268435456.
Definition DESTROY_MASK := 4026531840.
Definition POISON := 806218448.
(* InterlockedAdd on 32 bits *)
Definition w32 (x : Z) : Z := x mod 4294967296.

(* 1033-1043: what matters here; pid numbers the ports in the order of their creation (not in the code) *)
Record mport := mkm { rst : Z; iocp : option Z; pid : nat }.
Inductive tst :=
| TOut                              (* in no call *)
| TNew (a : nat) (h : Z)            (* epoll__create 528: port made, not in the tree yet *)
| TFound (h : Z) (a : option nat)   (* 1939-1941: found or not, the shared lock is held *)
| THold (a : nat)                   (* in epoll_ctl or epoll_wait with a reference *)
| TLoad (a : nat) (h : option Z)    (* 1209: handle read, kernel not called yet *)
| TSig (a : nat)                    (* 1555: to signal *)
| TDel (a : nat)                    (* epoll_close: taken from the tree, referenced *)
| TClosed (a : nat)                 (* handle closed *)
| TAwait (a : nat)                  (* 1567 *)
| TPoison (a : nat)                 (* before 1569 *)
| TFree (a : nat).                  (* before port_delete *)
(* hands: the open handles of completion ports, with the port each was made for *)
Record world := mkw { mem : nat -> option mport; tree : list (Z * nat); hands : list (Z * nat); nxt : nat; thr : nat -> tst }.

Definition set {A} (f : nat -> A) (i : nat) (v : A) : nat -> A := fun j => if Nat.eqb j i then v else f j.
Definition w_mem (s : world) a v := mkw (set (mem s) a v) (tree s) (hands s) (nxt s) (thr s).
Definition w_tree (s : world) v := mkw (mem s) v (hands s) (nxt s) (thr s).
Definition w_hands (s : world) v := mkw (mem s) (tree s) v (nxt s) (thr s).
Definition w_nxt (s : world) v := mkw (mem s) (tree s) (hands s) v (thr s).
Definition w_thr (s : world) t v := mkw (mem s) (tree s) (hands s) (nxt s) (set (thr s) t v).
Definition lookup (h : Z) (m : list (Z * nat)) : option nat := match find (fun e => fst e =? h) m with Some e => Some (snd e) | None => None end.
Definition drop (h : Z) (m : list (Z * nat)) : list (Z * nat) := filter (fun e => negb (fst e =? h)) m.
(* touching a port that is not there *)
Definition get (s : world) (a : nat) : outcome mport := match mem s a with Some p => Ok p | None => UB end.
Definition w_rst (s : world) (a : nat) (p : mport) (v : Z) : world := w_mem s a (Some (mkm v (iocp p) (pid p))).

(* 1540-1546 reflock_ref *)
Definition reflock_ref (s : world) (a : nat) : outcome world :=
  do p <- get s a;
  let v := w32 (rst p + REF) in
  if Z.land v DESTROY_MASK =? 0 then Ok (w_rst s a p v) else UB.
(* 1548-1556 reflock_unref: true if the event is to be signalled *)
Definition reflock_unref (s : world) (a : nat) : outcome (world * bool) :=
  do p <- get s a;
  let v := w32 (rst p - REF) in
  if Z.land v (Z.land DESTROY_MASK (Z.lnot DESTROY)) =? 0 then Ok (w_rst s a p v, v =? DESTROY) else UB.
(* 1558-1567: true if the event is to be awaited *)
Definition reflock_destroy (s : world) (a : nat) : outcome (world * bool) :=
  do p <- get s a;
  let v := w32 (rst p + (DESTROY - REF)) in
  if Z.land v DESTROY_MASK =? DESTROY then Ok (w_rst s a p v, negb (Z.land v REF_MASK =? 0)) else UB.
(* 1569-1570 *)
Definition reflock_poison (s : world) (a : nat) : outcome world :=
  do p <- get s a;
  if rst p =? DESTROY then Ok (w_rst s a p POISON) else UB.

Inductive obs :=
| OCreate (t : nat) (r : option (Z * nat)) (* epoll_create gave this handle, for this port *)
| OCall (t : nat) (h : Z) (r : option nat) (* epoll_ctl or epoll_wait found this port *)
| OUse (t id : nat)                        (* the call works on this port *)
| OTake (t id : nat)                       (* the kernel gives it completions of this port *)
| OLeave (t : nat)
| OClose (t : nat) (h : Z) (r : option nat) (* epoll_close took this port *)
| OFreed (id : nat).
Inductive label :=
| LCreate (t a : nat) (h : Z)  (* port_new at a free address, with a free handle value *)
| LNoCreate (t : nat)
| LAdd (t : nat) | LFind (t : nat) (h : Z) | LRef (t : nat)
| LUse (t : nat) (dev : bool)  (* dev: opens a device handle for the port's completion port *)
| LLoad (t : nat) | LTake (t : nat) | LUnref (t : nat)
| LDel (t : nat) (h : Z) | LClose (t : nat) | LDestroy (t : nat) | LMeet (t u : nat) | LPoison (t : nat) | LFree (t : nat).

Section Threads.
Variable N : nat.
(* nobody has the lock of the tree *)
Definition unshared (s : world) : bool := forallb (fun t => match thr s t with TFound _ _ => false | _ => true end) (seq 0 N).
Definition has_h (h : Z) (m : list (Z * nat)) : bool := match lookup h m with Some _ => true | None => false end.

(* a label that cannot happen changes nothing *)
Definition act (s : world) (l : label) : outcome (world * list obs) :=
  match l with
  | LCreate t a h =>
    match thr s t, mem s a with
    | TOut, None => if has_h h (hands s) then Ok (s, []) else
        Ok (w_thr (w_nxt (w_hands (w_mem s a (Some (mkm 0 (Some h) (nxt s)))) ((h, nxt s) :: hands s)) (S (nxt s))) t (TNew a h), [])
    | _, _ => Ok (s, [])
    end
  | LNoCreate t => match thr s t with TOut => Ok (s, [OCreate t None]) | _ => Ok (s, []) end
  | LAdd t =>
    match thr s t with
    | TNew a h =>
      if unshared s then
        (* the port is deleted with its handle open (1128) if the handle is known already *)
        if has_h h (tree s) then UB
        else do p <- get s a; Ok (w_thr (w_tree s ((h, a) :: tree s)) t TOut, [OCreate t (Some (h, pid p))])
      else Ok (s, [])
    | _ => Ok (s, [])
    end
  | LFind t h => match thr s t with TOut => Ok (w_thr s t (TFound h (lookup h (tree s))), []) | _ => Ok (s, []) end
  | LRef t =>
    match thr s t with
    | TFound h None => Ok (w_thr s t TOut, [OCall t h None])
    | TFound h (Some a) => do s1 <- reflock_ref s a; do p <- get s1 a; Ok (w_thr s1 t (THold a), [OCall t h (Some (pid p))])
    | _ => Ok (s, [])
    end
  | LUse t dev =>
    match thr s t with
    | THold a => do p <- get s a; if dev && (match iocp p with None => true | _ => false end) then UB else Ok (s, [OUse t (pid p)])
    | _ => Ok (s, [])
    end
  | LLoad t => match thr s t with THold a => do p <- get s a; Ok (w_thr s t (TLoad a (iocp p)), []) | _ => Ok (s, []) end
  | LTake t =>
    match thr s t with
    | TLoad a h =>
      Ok (w_thr s t (THold a), match h with None => [] | Some h => match lookup h (hands s) with Some id => [OTake t id] | None => [] end end)
    | _ => Ok (s, [])
    end
  | LUnref t =>
    match thr s t with
    | THold a => do x <- reflock_unref s a; Ok (w_thr (fst x) t (if snd x then TSig a else TOut), [OLeave t])
    | _ => Ok (s, [])
    end
  | LDel t h =>
    match thr s t with
    | TOut =>
      if unshared s then
        match lookup h (tree s) with
        | None => Ok (s, [OClose t h None])
        | Some a => do s1 <- reflock_ref (w_tree s (drop h (tree s))) a; do p <- get s1 a; Ok (w_thr s1 t (TDel a), [OClose t h (Some (pid p))])
        end
      else Ok (s, [])
    | _ => Ok (s, [])
    end
  | LClose t =>
    match thr s t with
    | TDel a =>
      do p <- get s a;
      let s1 := w_mem s a (Some (mkm (rst p) None (pid p))) in
      Ok (w_thr (match iocp p with Some h => w_hands s1 (drop h (hands s)) | None => s1 end) t (TClosed a), [])
    | _ => Ok (s, [])
    end
  | LDestroy t => match thr s t with TClosed a => do x <- reflock_destroy s a; Ok (w_thr (fst x) t (if snd x then TAwait a else TPoison a), []) | _ => Ok (s, []) end
  | LMeet t u =>
    (* NtReleaseKeyedEvent waits for a waiter on the same address *)
    match thr s t, thr s u with TSig a, TAwait b => if Nat.eqb a b then Ok (w_thr (w_thr s t TOut) u (TPoison b), []) else Ok (s, []) | _, _ => Ok (s, []) end
  | LPoison t => match thr s t with TPoison a => do s1 <- reflock_poison s a; Ok (w_thr s1 t (TFree a), []) | _ => Ok (s, []) end
  | LFree t =>
    match thr s t with
    | TFree a => do p <- get s a; match iocp p with Some _ => UB | None => Ok (w_thr (w_mem s a None) t TOut, [OFreed (pid p)]) end
    | _ => Ok (s, [])
    end
  end.
Definition who (l : label) : list nat :=
  match l with
  | LMeet t u => [t; u]
  | LCreate t _ _ | LNoCreate t | LAdd t | LFind t _ | LRef t | LUse t _ | LLoad t | LTake t | LUnref t | LDel t _ | LClose t | LDestroy t | LPoison t | LFree t => [t]
  end.
Definition step (s : world) (l : label) : outcome (world * list obs) := if forallb (fun t => Nat.ltb t N) (who l) then act s l else Ok (s, []).
Fixpoint run (s : world) (ls : list label) : outcome (world * list obs) :=
  match ls with
  | [] => Ok (s, [])
  | l :: r => do x <- step s l; do y <- run (fst x) r; Ok (fst y, snd x ++ snd y)
  end.
End Threads.
Definition world0 : world := mkw (fun _ => None) [] [] 0 (fun _ => TOut).

(* ---- how long a wait lasts: 649-669 (epoll_pwait2), 1224-1290 (port_wait) ---- *)
Definition as_int (x : Z) : Z := (x + 2147483648) mod 4294967296 - 2147483648.
Definition chk_int (x : Z) : outcome Z := if (-2147483648 <=? x) && (x <=? 2147483647) then Ok x else UB.
(* the number of milliseconds epoll_wait is called with; None: a null pointer *)
Definition pwait2 (ts : option (Z * Z)) : outcome Z :=
  match ts with
  | None => Ok (-1)
  | Some (sec, nsec) =>
    do ms <- chk_int (as_int sec * 1000);
    do x <- chk_int (as_int nsec + 1000000);
    do y <- chk_int (x - 1);
    chk_int (ms + Z.rem y 1000000)
  end.
Definition INFINITE := 4294967295.
(* what a call of the kernel gives: events, completions without one, time-out, failure *)
Inductive kret := KGot | KNone | KTimeout | KErr.
Inductive wres := WGot | WZero | WErr.
(* the rounds: how long each call took (a time-out: how much longer than asked; never without end) and what it gave;
   the result, the time of the return, and the calls made with their times *)
Fixpoint wait_loop (timeout due now g : Z) (rs : list (Z * kret)) : outcome (wres * Z * list (Z * Z)) :=
  match rs with
  | [] => Fuel
  | (d, k) :: r =>
    let now1 := now + d in
    match k with
    | KGot => Ok (WGot, now1, [(now, g)])
    | KTimeout => if g =? INFINITE then wait_loop timeout due now g r else Ok (WZero, now1 + g, [(now, g)])
    | KErr => Ok (WErr, now1, [(now, g)])
    | KNone =>
      do x <- (if timeout <? 0 then wait_loop timeout due now1 g r
               else if due <=? now1 then Ok (WZero, now1, [])
               else wait_loop timeout due now1 (w32 (due - now1)) r);
      let '(res, t, l) := x in Ok (res, t, (now, g) :: l)
    end
  end.
Definition port_wait (timeout now : Z) (rs : list (Z * kret)) : outcome (wres * Z * list (Z * Z)) :=
  if 0 <? timeout then wait_loop timeout (now + timeout) now timeout rs
  else if timeout =? 0 then wait_loop timeout 0 now 0 rs
  else wait_loop timeout 0 now INFINITE rs.
