(* Names of directories and of files on Windows (os_windows.c 1764-1887: basename, dirname).  A string is
   the list of its bytes without the final 0. *)
From Verif Require Import Base.

Definition BSL : Z := 92.  (* '\\' *)
Definition SL : Z := 47.   (* '/' *)
Definition COLON : Z := 58.
Definition DOT : Z := 46.

(* os_windows.c 19-20, IS_SLASH_P on the byte at index i: for a backslash the byte before it is read, which
   is outside the string for the first one.  [lead]: IsDBCSLeadByte, which depends on the code page *)
Definition slash_at (lead : Z -> bool) (s : list Z) (i : nat) : outcome bool :=
  do c <- rd s i;
  if (c =? SL)%Z then Ok true
  else if (c =? BSL)%Z then
    match i with 0 => UB | S j => do p <- rd s j; Ok (negb (lead p)) end
  else Ok false.

(* the loops of 1851-1853, 1861-1863, 1872-1874: [k] is end + 1 (a pointer one before the string is only
   compared), [base] is path, [want] whether slashes are skipped *)
Fixpoint skip_back (lead : Z -> bool) (s : list Z) (base : nat) (want : bool) (k : nat) : outcome nat :=
  match k with
  | 0 => Ok 0
  | S e => if e <? base then Ok k
           else do b <- slash_at lead s e; if Bool.eqb b want then skip_back lead s base want e else Ok k
  end.

(* isalpha in the C locale *)
Definition alpha (c : Z) : bool := ((65 <=? c) && (c <=? 90) || (97 <=? c) && (c <=? 122))%Z.
Definition drive (s : list Z) : bool :=
  match s with c :: d :: _ => alpha c && (d =? COLON)%Z | _ => false end.

(* os_windows.c 1827-1887: the string in the buffer after it, and where the returned string begins in it;
   None: a null pointer *)
Definition dirname (lead : Z -> bool) (s : list Z) : outcome (list Z * option nat) :=
  let len := length s in
  let base := if drive s then 2 else 0 in
  if drive s && (len =? 2) then Ok (s, Some 2)
  else if len =? 0 then Ok (s, None)
  else
    do k1 <- skip_back lead s base true len;
    if k1 <=? base then Ok (firstn base s ++ [BSL], Some base)
    else
      do k2 <- skip_back lead s base false k1;
      if k2 <=? base then Ok (firstn base s ++ [DOT], Some base)
      else
        do k3 <- skip_back lead s base true k2;
        if k3 <=? base then Ok (firstn base s ++ [BSL], Some base)
        else Ok (firstn k3 s, Some base).
(* the returned string *)
Definition dir_of (lead : Z -> bool) (s : list Z) : outcome (option (list Z)) :=
  do r <- dirname lead s; Ok (option_map (fun b => skipn b (fst r)) (snd r)).

(* os_windows.c 1774-1815.  [mb]: what mblen says of the rest of the string, None for -1 and -2; c, comp and
   cend are indices, st is state.  The range of the string that is copied *)
Fixpoint base_loop (fuel : nat) (mb : list Z -> option nat) (rest : list Z) (c comp cend : nat) (st : bool) : outcome (nat * nat) :=
  match rest with
  | [] => Ok (comp, if st then c else cend)
  | x :: _ =>
    match fuel with
    | 0 => Fuel
    | S k =>
      let inc := mb rest in
      match inc with
      | Some 0 => Ok (comp, if st then c else cend)
      | Some 1 =>
        if ((x =? SL) || (x =? BSL))%Z then base_loop k mb (skipn 1 rest) (c + 1) comp (if st then c else cend) false
        else if (x =? COLON)%Z && (c =? comp + 1) then
          if st then base_loop k mb (skipn 1 rest) (c + 1) comp c false
          else base_loop k mb (skipn 1 rest) (c + 1) c cend true
        else base_loop k mb (skipn 1 rest) (c + 1) (if st then comp else c) cend true
      | Some n => base_loop k mb (skipn n rest) (c + n) (if st then comp else c) cend true
      | None => base_loop k mb (skipn 1 rest) (c + 1) comp cend st
      end
    end
  end.
(* os_windows.c 1764-1825 *)
Definition basename (mb : list Z -> option nat) (s : list Z) : outcome (list Z) :=
  do r <- base_loop (length s) mb s 0 0 0 false;
  Ok (firstn (snd r - fst r) (skipn (fst r) s)).
