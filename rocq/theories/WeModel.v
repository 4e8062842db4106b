(* The Windows poller of /repo/src/wepoll.c above its tree: ports, sockets, poll groups, waiting threads and the
   kernel's poll requests.  Every section under the lock of the port is one step; threads and the kernel interleave.
   Simplifications: the tree is the map it is shown to be in C112, the queues are lists; a socket state has a new
   number each time (addresses are not reused) and using a freed one is UB; the AFD device is described by its
   answers (poll pending / at once / handle closed / other error; cancel works or fails); a socket is closed or not,
   its handle is not given to another socket while it is registered; LastError is followed only where the code reads it. *)
Require Import Verif.Base.
Require Import List ZArith Bool.
Import ListNotations.
Open Scope Z_scope.

(* 40-51 *)
Definition EPOLLIN := 1. Definition EPOLLPRI := 2. Definition EPOLLOUT := 4. Definition EPOLLERR := 8. Definition EPOLLHUP := 16.
Definition EPOLLRDNORM := 64. Definition EPOLLRDBAND := 128. Definition EPOLLWRNORM := 256. Definition EPOLLWRBAND := 512.
Definition EPOLLMSG := 1024. Definition EPOLLRDHUP := 8192. Definition EPOLLONESHOT := 2147483648.
(* 239-246 *)
Definition AFD_RECEIVE := 1. Definition AFD_RECEIVE_EXPEDITED := 2. Definition AFD_SEND := 4. Definition AFD_DISCONNECT := 8.
Definition AFD_ABORT := 16. Definition AFD_LOCAL_CLOSE := 32. Definition AFD_ACCEPT := 128. Definition AFD_CONNECT_FAIL := 256.
(* 1573-1575 *)
Definition KNOWN := 1 + 2 + 4 + 8 + 16 + 64 + 128 + 256 + 512 + 1024 + 8192.
Definition hasb (m b : Z) : bool := negb (Z.land m b =? 0).
Definition on (b : bool) (m : Z) : Z := if b then m else 0.
(* 1716-1734 *)
Definition ep2afd (e : Z) : Z :=
  Z.lor AFD_LOCAL_CLOSE
  (Z.lor (on (hasb e (Z.lor EPOLLIN EPOLLRDNORM)) (Z.lor AFD_RECEIVE AFD_ACCEPT))
  (Z.lor (on (hasb e (Z.lor EPOLLPRI EPOLLRDBAND)) AFD_RECEIVE_EXPEDITED)
  (Z.lor (on (hasb e (Z.lor EPOLLOUT (Z.lor EPOLLWRNORM EPOLLWRBAND))) AFD_SEND)
  (Z.lor (on (hasb e (Z.lor EPOLLIN (Z.lor EPOLLRDNORM EPOLLRDHUP))) AFD_DISCONNECT)
  (Z.lor (on (hasb e EPOLLHUP) AFD_ABORT)
         (on (hasb e EPOLLERR) AFD_CONNECT_FAIL)))))).
(* 1736-1757 *)
Definition afd2ep (a : Z) : Z :=
  Z.lor (on (hasb a (Z.lor AFD_RECEIVE AFD_ACCEPT)) (Z.lor EPOLLIN EPOLLRDNORM))
  (Z.lor (on (hasb a AFD_RECEIVE_EXPEDITED) (Z.lor EPOLLPRI EPOLLRDBAND))
  (Z.lor (on (hasb a AFD_SEND) (Z.lor EPOLLOUT (Z.lor EPOLLWRNORM EPOLLWRBAND)))
  (Z.lor (on (hasb a AFD_DISCONNECT) (Z.lor EPOLLIN (Z.lor EPOLLRDNORM EPOLLRDHUP)))
  (Z.lor (on (hasb a AFD_ABORT) EPOLLHUP)
         (on (hasb a AFD_CONNECT_FAIL) (Z.lor EPOLLIN (Z.lor EPOLLOUT (Z.lor EPOLLERR (Z.lor EPOLLRDNORM (Z.lor EPOLLWRNORM EPOLLRDHUP)))))))))).

(* 1577-1595 *)
Inductive pstat := Idle | Pending | Cancelled.
Record sock := mks { uev : Z; udat : Z; pend : Z; pst : pstat; delp : bool; skey : Z; grp : nat }.
(* what the kernel answers to a request (1840-1862) *)
Inductive kans := KCancelled | KFailed | KNothing | KEvents (e : Z).
Record kreq := mkq { kmask : Z; kcan : bool; kdone : option kans }.
(* a waiting thread (1151-1276): outside, in GetQueuedCompletionStatusEx, or back from it with completions it has not handled yet *)
Inductive tst := TOut | TIn (max : nat) (inf : bool) | TGot (l : list nat) (max : nat) (inf : bool).
(* 1033-1043, with the kernel and the threads *)
Record port := mkp { socks : nat -> option sock; nxt : nat; tree : list (Z * nat); updq : list nat; delq : list nat;
  grps : list (nat * nat); ngrp : nat; active : nat; req : nat -> option kreq; cq : list nat; cond : nat -> Z; closed : nat -> bool; thr : nat -> tst }.

Definition set {A} (f : nat -> A) (i : nat) (v : A) : nat -> A := fun j => if Nat.eqb j i then v else f j.
Definition w_sock (p : port) i v := mkp (set (socks p) i v) (nxt p) (tree p) (updq p) (delq p) (grps p) (ngrp p) (active p) (req p) (cq p) (cond p) (closed p) (thr p).
Definition w_nxt (p : port) v := mkp (socks p) v (tree p) (updq p) (delq p) (grps p) (ngrp p) (active p) (req p) (cq p) (cond p) (closed p) (thr p).
Definition w_tree (p : port) v := mkp (socks p) (nxt p) v (updq p) (delq p) (grps p) (ngrp p) (active p) (req p) (cq p) (cond p) (closed p) (thr p).
Definition w_qs (p : port) u d := mkp (socks p) (nxt p) (tree p) u d (grps p) (ngrp p) (active p) (req p) (cq p) (cond p) (closed p) (thr p).
Definition w_grps (p : port) g n := mkp (socks p) (nxt p) (tree p) (updq p) (delq p) g n (active p) (req p) (cq p) (cond p) (closed p) (thr p).
Definition w_active (p : port) v := mkp (socks p) (nxt p) (tree p) (updq p) (delq p) (grps p) (ngrp p) v (req p) (cq p) (cond p) (closed p) (thr p).
Definition w_req (p : port) i v := mkp (socks p) (nxt p) (tree p) (updq p) (delq p) (grps p) (ngrp p) (active p) (set (req p) i v) (cq p) (cond p) (closed p) (thr p).
Definition w_cq (p : port) v := mkp (socks p) (nxt p) (tree p) (updq p) (delq p) (grps p) (ngrp p) (active p) (req p) v (cond p) (closed p) (thr p).
Definition w_cond (p : port) i v := mkp (socks p) (nxt p) (tree p) (updq p) (delq p) (grps p) (ngrp p) (active p) (req p) (cq p) (set (cond p) i v) (closed p) (thr p).
Definition w_closed (p : port) i v := mkp (socks p) (nxt p) (tree p) (updq p) (delq p) (grps p) (ngrp p) (active p) (req p) (cq p) (cond p) (set (closed p) i v) (thr p).
Definition w_thr (p : port) t v := mkp (socks p) (nxt p) (tree p) (updq p) (delq p) (grps p) (ngrp p) (active p) (req p) (cq p) (cond p) (closed p) (set (thr p) t v).

Definition s_ev (s : sock) e d := mks e d (pend s) (pst s) (delp s) (skey s) (grp s).
Definition s_st (s : sock) st pe := mks (uev s) (udat s) pe st (delp s) (skey s) (grp s).
Definition s_del (s : sock) := mks (uev s) (udat s) (pend s) (pst s) true (skey s) (grp s).

(* using a socket state that is not there *)
Definition get (p : port) (i : nat) : outcome sock := match socks p i with Some s => Ok s | None => UB end.
Definition mem (i : nat) (l : list nat) : bool := existsb (Nat.eqb i) l.
Definition without (i : nat) (l : list nat) : list nat := filter (fun j => negb (Nat.eqb j i)) l.
(* 1502-1504 queue_is_enqueued: one link for both queues *)
Definition enq (p : port) (i : nat) : bool := mem i (updq p) || mem i (delq p).
(* 1494-1497 queue_remove *)
Definition unq (p : port) (i : nat) : port := w_qs p (without i (updq p)) (without i (delq p)).
(* 1399-1405 port_request_socket_update *)
Definition request_update (p : port) (i : nat) : port := if enq p i then p else w_qs p (updq p ++ [i]) (delq p).
(* 1407-1413 and 1423-1429: port_cancel_socket_update, port_remove_deleted_socket *)
Definition dequeue (p : port) (i : nat) : port := if enq p i then unq p i else p.
(* 1415-1421 *)
Definition add_deleted (p : port) (i : nat) : port := if enq p i then p else w_qs p (updq p) (delq p ++ [i]).

(* ---- poll groups 932-1012: in queue order, with their sizes ---- *)
Definition GMAX : nat := 32.
(* 979-999; fresh: a new device handle can be opened *)
Definition acquire (g : list (nat * nat)) (n : nat) (fresh : bool) : option (list (nat * nat) * nat * nat) :=
  let put (r : list (nat * nat)) (x k : nat) := if Nat.eqb (S k) GMAX then (x, S k) :: r else r ++ [(x, S k)] in
  match rev g with
  | (x, k) :: r => if Nat.leb GMAX k then (if fresh then Some (put g n 0%nat, n, S n) else None) else Some (put (rev r) x k, x, n)
  | [] => if fresh then Some (put g n 0%nat, n, S n) else None
  end.
(* 1001-1012; the assertion is 1006 *)
Definition release (g : list (nat * nat)) (x : nat) : outcome (list (nat * nat)) :=
  match find (fun e => Nat.eqb (fst e) x) g with
  | Some (_, S k) => if Nat.ltb k GMAX then Ok (filter (fun e => negb (Nat.eqb (fst e) x)) g ++ [(x, k)]) else UB
  | _ => UB
  end.

(* ---- sockets ---- *)
(* the answers of the device: to polls, and whether cancelling works *)
Inductive pans := PPend | PAtOnce | PClosed | PErr.
Record env := mkv { polls : nat -> pans; cancels : nat -> bool }.
Inductive cop := CAdd (ev dat : Z) (ae : nat) | CMod (ev dat : Z) | CDel | CBad.
Inductive err := EEXIST | ENOENT | EINVAL | EBADF | ENOMEM | EDEV | ESOCK.
Inductive obs :=
| OCtl (k : Z) (o : cop) (hok : bool) (r : option err)
| OClosed (k : Z) | OAnswer (k : Z) (a : kans) | ODrop (k : Z)
| OWait (t : nat) (max : Z) (inf : bool) | OReport (t : nat) (k ev dat : Z) | ORet (t : nat) (r : option nat).

(* 1608-1619 sock__cancel_poll with afd_cancel_poll 360-379 (a request that is answered already is left alone); the assertion is 1609 *)
Definition cancel_poll (v : env) (p : port) (i : nat) : outcome (port * bool) :=
  do s <- get p i;
  match pst s, req p i with
  | Pending, Some q =>
    match kdone q with
    | Some _ => Ok (w_sock p i (Some (s_st s Cancelled 0)), true)
    | None => if cancels v i then Ok (w_req (w_sock p i (Some (s_st s Cancelled 0))) i (Some (mkq (kmask q) true None)), true) else Ok (p, false)
    end
  | _, _ => UB
  end.
(* 1386-1389 tree_del of a node that is not in the tree is UB *)
Definition unregister (p : port) (i : nat) : outcome port :=
  if existsb (fun e => Nat.eqb (snd e) i) (tree p) then Ok (w_tree p (filter (fun e => negb (Nat.eqb (snd e) i)) (tree p))) else UB.
(* 1659-1687 sock__delete *)
Definition sock_delete (v : env) (p : port) (i : nat) (force : bool) : outcome port :=
  do s <- get p i;
  do p1 <- (if delp s then Ok p
            else
              do x <- (match pst s with Pending => cancel_poll v p i | _ => Ok (p, true) end);
              let p1 := dequeue (fst x) i in
              do p2 <- unregister p1 i;
              do s2 <- get p2 i;
              Ok (w_sock p2 i (Some (s_del s2))));
  do s1 <- get p1 i;
  if force || (match pst s1 with Idle => true | _ => false end) then
    let p2 := dequeue p1 i in
    do g <- release (grps p2) (grp s1);
    Ok (w_sock (w_grps p2 g (ngrp p2)) i None)
  else Ok (add_deleted p1 i).

(* 1697-1714 sock_set_event *)
Definition set_event (p : port) (i : nat) (ev dat : Z) : outcome port :=
  do s <- get p i;
  let e := Z.lor ev (Z.lor EPOLLERR EPOLLHUP) in
  let p1 := w_sock p i (Some (s_ev s e dat)) in
  Ok (if hasb (Z.land e KNOWN) (Z.lnot (pend s)) then request_update p1 i else p1).

(* the device knows which sockets are closed *)
Definition answer (v : env) (p : port) (i : nat) : pans := match polls v i with PClosed => if closed p i then PClosed else PPend | a => a end.
(* 1759-1828 sock_update: false for -1; the second flag says that LastError was set; a request for a socket whose
   request the kernel still has is UB *)
Definition sock_update (v : env) (p : port) (i : nat) : outcome (port * bool * bool * list obs) :=
  do s <- get p i;
  if delp s then UB
  else match pst s with
  | Pending =>
    if hasb (Z.land (uev s) KNOWN) (Z.lnot (pend s)) then
      do x <- cancel_poll v p i;
      if snd x then Ok (dequeue (fst x) i, true, false, []) else Ok (fst x, false, true, [])
    else Ok (dequeue p i, true, false, [])
  | Cancelled => Ok (dequeue p i, true, false, [])
  | Idle =>
    match req p i with
    | Some _ => UB
    | None =>
      match answer v p i with
      | PErr => Ok (p, false, true, [])
      | PClosed => do p1 <- sock_delete v p i false; Ok (p1, true, true, [ODrop (skey s)])
      | a =>
        let p1 := w_req (w_sock p i (Some (s_st s Pending (uev s)))) i (Some (mkq (ep2afd (uev s)) false None)) in
        Ok (dequeue p1 i, true, match a with PPend => true | _ => false end, [])
      end
    end
  end.

(* 1159-1176 port__update_events; every success takes a socket from the queue *)
Fixpoint update_events (fuel : nat) (v : env) (p : port) (touched : bool) : outcome (port * bool * bool * list obs) :=
  match updq p with
  | [] => Ok (p, true, touched, [])
  | i :: _ =>
    match fuel with
    | O => Fuel
    | S f =>
      do x <- sock_update v p i;
      let '(p1, ok, tch, o) := x in
      if ok : bool then
        do y <- update_events f v p1 (touched || tch);
        let '(p2, ok2, t2, o2) := y in Ok (p2, ok2, t2, o ++ o2)
      else Ok (p1, false, true, o)
    end
  end.
Definition update_all (v : env) (p : port) := update_events (length (updq p)) v p false.
(* 1178-1181 *)
Definition if_polling (v : env) (p : port) : outcome (port * bool * list obs) :=
  match active p with
  | O => Ok (p, false, [])
  | S _ => do x <- update_all v p; let '(p1, _, t, o) := x in Ok (p1, t, o)
  end.

(* 1830-1889 sock_feed_event *)
Definition feed (v : env) (t : nat) (p : port) (i : nat) : outcome (port * list obs) :=
  do s0 <- get p i;
  match req p i with
  | Some (mkq _ _ (Some a)) =>
    let s := s_st s0 Idle 0 in
    let p1 := w_req (w_sock p i (Some s)) i None in
    if delp s then (do p2 <- sock_delete v p1 i false; Ok (p2, []))
    else
      let local := match a with KEvents e => hasb e AFD_LOCAL_CLOSE | _ => false end in
      if local then (do p2 <- sock_delete v p1 i false; Ok (p2, [ODrop (skey s)]))
      else
        let ev := match a with KCancelled => 0 | KFailed => EPOLLERR | KNothing => 0 | KEvents e => afd2ep e end in
        let p2 := request_update p1 i in
        let ev := Z.land ev (uev s) in
        if ev =? 0 then Ok (p2, [])
        else
          let s' := if hasb (uev s) EPOLLONESHOT then s_ev s 0 (udat s) else s in
          Ok (w_sock p2 i (Some s'), [OReport t (skey s) ev (udat s)])
  | _ => UB
  end.
(* 1183-1200 *)
Fixpoint feed_all (v : env) (t : nat) (p : port) (l : list nat) : outcome (port * list obs) :=
  match l with
  | [] => Ok (p, [])
  | i :: r => do x <- feed v t p i; do y <- feed_all v t (fst x) r; Ok (fst y, snd x ++ snd y)
  end.
Definition reports (o : list obs) : nat := length (filter (fun x => match x with OReport _ _ _ _ => true | _ => false end) o).

(* ---- epoll_ctl 577-609, 1278-1365, 1621-1657 ---- *)
Definition invalid_socket : Z := 18446744073709551615.
(* the errors as the caller sees them: a handle that is not valid goes first (603-608) *)
Definition fin (hok : bool) (e : err) : option err := Some (if hok then e else EBADF).
Definition lookup (k : Z) (m : list (Z * nat)) : option nat := match find (fun e => fst e =? k) m with Some e => Some (snd e) | None => None end.
(* ae: 0 everything works, 1 no base socket, 2 no new device handle, 3 and up no memory *)
Definition sock_new (p : port) (k : Z) (ae : nat) : outcome (port * (nat + err)) :=
  if (k =? 0) || (k =? invalid_socket) then Ok (p, inr EBADF)
  else if Nat.eqb ae 1 then Ok (p, inr ESOCK)
  else match acquire (grps p) (ngrp p) (negb (Nat.eqb ae 2)) with
  | None => Ok (p, inr EDEV)
  | Some (g, x, n) =>
    let p1 := w_grps p g n in
    if Nat.leb 3 ae then (do g <- release (grps p1) x; Ok (w_grps p1 g (ngrp p1), inr ENOMEM))
    else match lookup k (tree p1) with
    | Some _ => do g <- release (grps p1) x; Ok (w_grps p1 g (ngrp p1), inr EEXIST)
    | None =>
      let i := nxt p1 in
      Ok (w_tree (w_nxt (w_sock p1 i (Some (mks 0 0 0 Idle false k x))) (S i)) ((k, i) :: tree p1), inl i)
    end
  end.
Definition port_ctl (v : env) (p : port) (k : Z) (o : cop) : outcome (port * option err * list obs) :=
  match o with
  | CAdd ev dat ae =>
    do x <- sock_new p k ae;
    match snd x with
    | inr e => Ok (fst x, Some e, [])
    | inl i => do p1 <- set_event (fst x) i ev dat; do y <- if_polling v p1; let '(p2, _, o) := y in Ok (p2, None, o)
    end
  | CMod ev dat =>
    match lookup k (tree p) with
    | None => Ok (p, Some ENOENT, [])
    | Some i => do p1 <- set_event p i ev dat; do y <- if_polling v p1; let '(p2, _, o) := y in Ok (p2, None, o)
    end
  | CDel =>
    match lookup k (tree p) with
    | None => Ok (p, Some ENOENT, [])
    | Some i => do p1 <- sock_delete v p i false; Ok (p1, None, [])
    end
  | CBad => Ok (p, Some EINVAL, [])
  end.

(* ---- steps ---- *)
Inductive label :=
| LCtl (k : Z) (o : cop) (hok : bool) (v : env)      (* epoll_ctl *)
| LWait (t : nat) (max : Z) (mok inf : bool) (v : env) (* epoll_wait up to the call of the kernel; mok: memory for the completions *)
| LTake (t n : nat)                                   (* the kernel gives the thread n completions *)
| LFeed (t : nat) (late : bool) (v : env)             (* the thread handles them; late: its time is over *)
| LStop (t : nat) (timeout : bool) (v : env)          (* GetQueuedCompletionStatusEx gives up: time-out or another error *)
| KCond (i : nat) (c : Z)                             (* the state of a socket changes *)
| KClose (i : nat)                                    (* a registered socket is closed *)
| KDone (i : nat) (a : kans).                         (* the kernel answers a request *)

(* 1202-1233 up to the call: -1 or blocked *)
Definition enter (v : env) (p : port) (t max : nat) (inf : bool) : outcome (port * list obs) :=
  do x <- update_all v p;
  let '(p1, ok, _, o) := x in
  if ok : bool then Ok (w_thr (w_active p1 (S (active p1))) t (TIn max inf), o)
  else
    do y <- if_polling v p1;
    let '(p2, _, o2) := y in Ok (w_thr p2 t TOut, o ++ o2 ++ [ORet t None]).

(* an answer the kernel may give: events it was asked for and that are there, closing only of closed sockets *)
Definition honest (p : port) (i : nat) (q : kreq) (a : kans) : bool :=
  match a with
  | KEvents e => (e =? Z.lor (Z.land (Z.land (cond p i) (kmask q)) (Z.lnot AFD_LOCAL_CLOSE)) (on (closed p i) AFD_LOCAL_CLOSE)) && negb (e =? 0)
  | _ => true
  end.

(* a label that cannot happen changes nothing *)
Definition step (p : port) (l : label) : outcome (port * list obs) :=
  match l with
  | LCtl k o hok v =>
    do x <- port_ctl v p k o;
    let '(p1, r, os) := x in
    Ok (p1, OCtl k o hok (match r with None => None | Some e => fin hok e end) :: os)
  | LWait t max mok inf v =>
    match thr p t with
    | TOut =>
      if max <=? 0 then Ok (p, [OWait t max inf; ORet t None])
      else
        do x <- enter v p t (if (max <=? 256) || mok then Z.to_nat max else 256%nat) inf;
        Ok (fst x, OWait t max inf :: snd x)
    | _ => Ok (p, [])
    end
  | LTake t n =>
    match thr p t with
    | TIn max inf => if Nat.leb 1 n && Nat.leb n (Nat.min max (length (cq p))) then Ok (w_cq (w_thr p t (TGot (firstn n (cq p)) max inf)) (skipn n (cq p)), []) else Ok (p, [])
    | _ => Ok (p, [])
    end
  | LFeed t late v =>
    match thr p t with
    | TGot l max inf =>
      do x <- feed_all v t (w_active p (pred (active p))) l;
      let (p1, o1) := x in
      match reports o1 with
      | O =>
        if negb inf && late then
          do y <- if_polling v p1;
          let '(p2, _, o2) := y in Ok (w_thr p2 t TOut, o1 ++ o2 ++ [ORet t (Some O)])
        else
          do y <- enter v p1 t max inf;
          Ok (fst y, o1 ++ snd y)
      | n =>
        do y <- if_polling v p1;
        let '(p2, _, o2) := y in Ok (w_thr p2 t TOut, o1 ++ o2 ++ [ORet t (Some n)])
      end
    | _ => Ok (p, [])
    end
  | LStop t timeout v =>
    match thr p t with
    | TIn max inf =>
      if timeout && inf then Ok (p, [])
      else
        do y <- if_polling v (w_active p (pred (active p)));
        let '(p2, touched, o2) := y in
        Ok (w_thr p2 t TOut, o2 ++ [ORet t (if timeout && negb touched then Some O else None)])
    | _ => Ok (p, [])
    end
  | KCond i c => Ok (w_cond p i c, [])
  | KClose i => match find (fun e => Nat.eqb (snd e) i) (tree p) with Some (k, _) => Ok (w_closed p i true, [OClosed k]) | None => Ok (p, []) end
  | KDone i a =>
    match req p i with
    | Some q =>
      match kdone q with
      | None => if honest p i q a then Ok (w_cq (w_req p i (Some (mkq (kmask q) (kcan q) (Some a)))) (cq p ++ [i]),
                   match find (fun e => Nat.eqb (snd e) i) (tree p) with Some (k, _) => [OAnswer k a] | None => [] end)
                else Ok (p, [])
      | Some _ => Ok (p, [])
      end
    | None => Ok (p, [])
    end
  end.
Fixpoint run (p : port) (ls : list label) : outcome (port * list obs) :=
  match ls with
  | [] => Ok (p, [])
  | l :: r => do x <- step p l; do y <- run (fst x) r; Ok (fst y, snd x ++ snd y)
  end.
(* 1072-1103 port_new *)
Definition port0 (c : nat -> Z) : port := mkp (fun _ => None) 0 [] [] [] [] 0 0 (fun _ => None) [] c (fun _ => false) (fun _ => TOut).

(* 1126-1157 port_delete, after the port was closed and nobody is inside; the assertions are 968 and 1150.
   The root of the tree is some node of the map. *)
Fixpoint drain (fuel : nat) (pick : list (Z * nat) -> nat) (v : env) (p : port) : outcome port :=
  match tree p with
  | [] => Ok p
  | e :: _ => match fuel with O => Fuel | S f => do p1 <- sock_delete v p (snd (nth (pick (tree p)) (tree p) e)) true; drain f pick v p1 end
  end.
Fixpoint drain_del (fuel : nat) (v : env) (p : port) : outcome port :=
  match delq p with
  | [] => Ok p
  | i :: _ => match fuel with O => Fuel | S f => do p1 <- sock_delete v p i true; drain_del f v p1 end
  end.
Definition port_delete (pick : list (Z * nat) -> nat) (v : env) (p : port) : outcome port :=
  do p1 <- drain (length (tree p)) pick v p;
  do p2 <- drain_del (length (delq p1)) v p1;
  if forallb (fun e => Nat.eqb (snd e) 0) (grps p2) then
    match updq p2 with [] => Ok (w_grps p2 [] (ngrp p2)) | _ => UB end
  else UB.
