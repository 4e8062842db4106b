(* The tree that finds sockets and ports by number: wepoll.c 1958-2170 (tree_t).  A node is a number, a null pointer None;
   following a null pointer is undefined.  The macros that are written twice with left and right exchanged take the side. *)
From Verif Require Import Base DllModel.
Local Open Scope Z_scope.

Inductive side := SL | SR.
Definition opp (s : side) : side := match s with SL => SR | SR => SL end.

(* tree_node_t, tree_t: wepoll.c 466-478 *)
Record tnode := mkn { lft : option nat; rgt : option nat; par : option nat; red : bool; key : Z }.
Record tmem := { root : option nat; fld : nat -> tnode }.

Definition ch (s : side) (n : tnode) : option nat := match s with SL => lft n | SR => rgt n end.
Definition put (h : tmem) (n : nat) (v : tnode) : tmem := {| root := root h; fld := upd (fld h) n v |}.
Definition set_root (h : tmem) (p : option nat) : tmem := {| root := p; fld := fld h |}.
Definition set_ch (s : side) (h : tmem) (n : nat) (p : option nat) : tmem :=
  let x := fld h n in
  put h n (match s with SL => mkn p (rgt x) (par x) (red x) (key x) | SR => mkn (lft x) p (par x) (red x) (key x) end).
Definition set_par (h : tmem) (n : nat) (p : option nat) : tmem :=
  let x := fld h n in put h n (mkn (lft x) (rgt x) p (red x) (key x)).
Definition set_red (h : tmem) (n : nat) (b : bool) : tmem :=
  let x := fld h n in put h n (mkn (lft x) (rgt x) (par x) b (key x)).

(* a pointer that is followed *)
Definition at_ (p : option nat) : outcome nat := match p with Some n => Ok n | None => UB end.
Definition is (p q : option nat) : bool := match p, q with Some a, Some b => Nat.eqb a b | None, None => true | _, _ => false end.
(* p && p->red *)
Definition redp (h : tmem) (p : option nat) : bool := match p with Some n => red (fld h n) | None => false end.

(* 1966-1985 TREE__ROTATE *)
Definition rotate (cis : side) (h : tmem) (p : nat) : outcome tmem :=
  let trans := opp cis in
  let q := ch trans (fld h p) in
  let parent := par (fld h p) in
  let h := match parent with
           | Some pp => if is (lft (fld h pp)) (Some p) then set_ch SL h pp q else set_ch SR h pp q
           | None => set_root h q
           end in
  do q <- at_ q;
  let h := set_par h q parent in
  let h := set_par h p (Some q) in
  let h := set_ch trans h p (ch cis (fld h q)) in
  let h := match ch trans (fld h p) with Some x => set_par h x (Some p) | None => h end in
  Ok (set_ch cis h q (Some p)).

(* 1995-2001, 2026-2036: the descent of tree_add; None: the key is there already *)
Fixpoint descend (fuel : nat) (h : tmem) (node : nat) (k : Z) (parent : nat) : outcome (option (tmem * nat)) :=
  match fuel with
  | O => Fuel
  | S f =>
    let go s := match ch s (fld h parent) with
                | Some c => descend f h node k c
                | None => Ok (Some (set_ch s h parent (Some node), parent))
                end in
    if k <? key (fld h parent) then go SL
    else if key (fld h parent) <? k then go SR
    else Ok None
  end.

(* 2003-2020: one round; the new node *)
Definition rebalance_insert (cis : side) (h : tmem) (node parent : nat) : outcome (tmem * nat) :=
  let trans := opp cis in
  do grandparent <- at_ (par (fld h parent));
  let uncle := ch trans (fld h grandparent) in
  if redp h uncle then
    do u <- at_ uncle;
    let h := set_red h u false in
    let h := set_red h parent false in
    Ok (set_red h grandparent true, grandparent)
  else
    do x <- (if is (Some node) (ch trans (fld h parent))
             then do h1 <- rotate cis h parent; Ok (h1, parent, par (fld h1 parent))
             else Ok (h, node, Some parent));
    let '(h1, node1, parent1) := x in
    do parent2 <- at_ parent1;
    let h2 := set_red (set_red h1 parent2 false) grandparent true in
    do h3 <- rotate trans h2 grandparent;
    Ok (h3, node1).
(* 2046-2052 *)
Fixpoint add_loop (fuel : nat) (h : tmem) (node : nat) (parent : option nat) : outcome tmem :=
  match parent with
  | None => Ok h
  | Some p =>
    if red (fld h p) then
      match fuel with
      | O => Fuel
      | S f =>
        do g <- at_ (par (fld h p));
        do x <- rebalance_insert (if is (Some p) (lft (fld h g)) then SL else SR) h node p;
        let (h1, node1) := x in
        add_loop f h1 node1 (par (fld h1 node1))
      end
    else Ok h
  end.
(* 2022-2056 tree_add: 0 or -1 *)
Definition tree_add (fuel : nat) (h : tmem) (node : nat) (k : Z) : outcome (tmem * Z) :=
  do x <- match root h with
          | Some r => do y <- descend fuel h node k r; Ok (match y with Some (h1, p) => Some (h1, Some p) | None => None end)
          | None => Ok (Some (set_root h (Some node), None))
          end;
  match x with
  | None => Ok (h, -1)
  | Some (h1, parent) =>
    let h2 := put h1 node (mkn None None parent true k) in
    do h3 <- add_loop fuel h2 node parent;
    do r <- at_ (root h3);
    Ok (set_red h3 r false, 0)
  end.

(* 2093-2096 *)
Fixpoint leftmost (fuel : nat) (h : tmem) (n : nat) : outcome nat :=
  match fuel with
  | O => Fuel
  | S f => match lft (fld h n) with Some l => leftmost f h l | None => Ok n end
  end.
(* 2058-2080: one round; true: left by break, with the root as node *)
Definition rebalance_remove (cis : side) (h : tmem) (parent : nat) : outcome (tmem * bool) :=
  let trans := opp cis in
  do sibling <- at_ (ch trans (fld h parent));
  do x <- (if red (fld h sibling) then
             let h := set_red h sibling false in
             let h := set_red h parent true in
             do h <- rotate cis h parent;
             do sibling <- at_ (ch trans (fld h parent));
             Ok (h, sibling)
           else Ok (h, sibling));
  let (h, sibling) := x in
  if redp h (lft (fld h sibling)) || redp h (rgt (fld h sibling)) then
    do x <- (if negb (redp h (ch trans (fld h sibling))) then
               do c <- at_ (ch cis (fld h sibling));
               let h := set_red h c false in
               let h := set_red h sibling true in
               do h <- rotate trans h sibling;
               do sibling <- at_ (ch trans (fld h parent));
               Ok (h, sibling)
             else Ok (h, sibling));
    let (h, sibling) := x in
    let h := set_red h sibling (red (fld h parent)) in
    do t <- at_ (ch trans (fld h sibling));
    let h := set_red h t false in
    let h := set_red h parent false in
    do h <- rotate cis h parent;
    Ok (h, true)
  else Ok (set_red h sibling true, false).
(* 2138-2149 *)
Fixpoint del_loop (fuel : nat) (h : tmem) (node parent : option nat) : outcome (tmem * option nat) :=
  match fuel with
  | O => Fuel
  | S f =>
    if is node (root h) then Ok (h, node)
    else
      do p <- at_ parent;
      do x <- rebalance_remove (if is node (lft (fld h p)) then SL else SR) h p;
      let (h1, broke) := x in
      if broke : bool then Ok (h1, root h1)
      else if red (fld h1 p) then Ok (h1, Some p)
      else del_loop f h1 (Some p) (par (fld h1 p))
  end.
(* 2082-2153 tree_del *)
Definition tree_del (fuel : nat) (h : tmem) (node : nat) : outcome tmem :=
  let parent := par (fld h node) in
  let left := lft (fld h node) in
  let right := rgt (fld h node) in
  do next <- match left, right with
             | None, _ => Ok right
             | _, None => Ok left
             | Some _, Some r => do n <- leftmost fuel h r; Ok (Some n)
             end;
  let h1 := match parent with
            | Some pp => if is (lft (fld h pp)) (Some node) then set_ch SL h pp next else set_ch SR h pp next
            | None => set_root h next
            end in
  do x <- match left, right with
          | Some l, Some r =>
            do nx <- at_ next;
            let rd := red (fld h1 nx) in
            let h2 := set_red h1 nx (red (fld h1 node)) in
            let h3 := set_ch SL h2 nx left in
            let h4 := set_par h3 l (Some nx) in
            if negb (is next right) then
              do pp <- at_ (par (fld h4 nx));
              let h5 := set_par h4 nx (par (fld h4 node)) in
              let nd := rgt (fld h5 nx) in
              let h6 := set_ch SL h5 pp nd in
              let h7 := set_ch SR h6 nx right in
              let h8 := set_par h7 r (Some nx) in
              Ok (h8, rd, nd, Some pp)
            else
              let h5 := set_par h4 nx parent in
              Ok (h5, rd, rgt (fld h5 nx), Some nx)
          | _, _ => Ok (h1, red (fld h1 node), next, parent)
          end;
  let '(h2, rd, nd, parent1) := x in
  let h3 := match nd with Some n => set_par h2 n parent1 | None => h2 end in
  if rd : bool then Ok h3
  else if redp h3 nd then (do n <- at_ nd; Ok (set_red h3 n false))
  else
    do y <- del_loop fuel h3 nd parent1;
    let (h4, nd) := y in
    Ok (match nd with Some n => set_red h4 n false | None => h4 end).

(* 2155-2166 *)
Fixpoint find_from (fuel : nat) (h : tmem) (k : Z) (node : option nat) : outcome (option nat) :=
  match node with
  | None => Ok None
  | Some n =>
    match fuel with
    | O => Fuel
    | S f =>
      if k <? key (fld h n) then find_from f h k (lft (fld h n))
      else if key (fld h n) <? k then find_from f h k (rgt (fld h n))
      else Ok (Some n)
    end
  end.
Definition tree_find (fuel : nat) (h : tmem) (k : Z) : outcome (option nat) := find_from fuel h k (root h).

(* 1958-1964: an empty tree; what nodes hold before they are added does not matter *)
Definition tree_init (f : nat -> tnode) : tmem := {| root := None; fld := f |}.

(* a program *)
Inductive rop := RAdd (n : nat) (k : Z) | RDel (n : nat) | RFind (k : Z).
Inductive rres := GAdded (ok : bool) | GDeleted | GFound (n : option nat).
Definition rstep (fuel : nat) (h : tmem) (o : rop) : outcome (tmem * rres) :=
  match o with
  | RAdd n k => do x <- tree_add fuel h n k; Ok (fst x, GAdded (snd x =? 0))
  | RDel n => do h1 <- tree_del fuel h n; Ok (h1, GDeleted)
  | RFind k => do r <- tree_find fuel h k; Ok (h, GFound r)
  end.
Fixpoint rrun (fuel : nat) (h : tmem) (l : list rop) : outcome (tmem * list rres) :=
  match l with
  | [] => Ok (h, [])
  | o :: r => do x <- rstep fuel h o; do y <- rrun fuel (fst x) r; Ok (fst y, snd x :: snd y)
  end.
