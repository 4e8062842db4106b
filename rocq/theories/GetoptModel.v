(* Command-line flags: src/getopt.c 1-93.  Printing of the usage text is left out. *)
From Verif Require Import Base StrModel.

(* the text searched at line 66: "-h, --h, ?, help" *)
Definition HELP : bytes := [45; 104; 44; 32; 45; 45; 104; 44; 32; 63; 44; 32; 104; 101; 108; 112]%Z.
Definition EQ : bytes := [61%Z].

Fixpoint bytes_eqb (a b : bytes) : bool :=
  match a, b with
  | [], [] => true
  | x :: a', y :: b' => (x =? y)%Z && bytes_eqb a' b'
  | _, _ => false
  end.
(* arrays.c 981-983: None is NULL *)
Definition str_is (a : bytes) (f : option bytes) : bool :=
  match f with Some f => bytes_eqb a f | None => false end.

(* lines 3-10 *)
Record gst := { argv : list bytes; set_done : bool; ordered : bool; index : nat; required : Z; opt : option bytes }.
Definition with_found (s : gst) (o : option bytes) (next : nat) : gst :=
  {| argv := argv s; set_done := set_done s; ordered := ordered s; index := if ordered s then next else index s; required := required s; opt := o |}.

(* lines 16-23: only the first call counts *)
Definition message_set (s : gst) (minimum : Z) (is_ordered : bool) : gst :=
  if set_done s then s
  else {| argv := argv s; set_done := true; ordered := is_ordered; index := index s; required := minimum; opt := opt s |}.

(* lines 36-77: [rest] is argv from position [i] on; argv[argc] is NULL.  None: not found. *)
Fixpoint scan (s : gst) (flag : option bytes) (single : bool) (i : nat) (rest : list bytes) : outcome (option gst) :=
  match rest with
  | [] => Ok None
  | a :: tl =>
    do has_eq <- str_has a EQ;
    do parts <- (if single && has_eq then str_split EQ a else Ok None);
    let is_split := single && has_eq in
    match flag with
    | None =>
      if i =? index s then Ok (Some (with_found s (Some a) (i + 1)))
      else
        do h <- str_has HELP a;
        if h then Ok None else scan s flag single (S i) tl
    | Some _ =>
      (* flags[0], flags[1]: reading them needs a non-NULL vector *)
      do first_is <- (if is_split then match parts with Some r => Ok (str_is (hd [] (words r)) flag) | None => UB end else Ok false);
      if str_is a flag || first_is then
        if is_split then
          match parts with
          | Some r => Ok (Some (with_found s (nth_error (words r) 1) (i + 1)))
          | None => UB
          end
        else if single then Ok (Some (with_found s (Some a) (i + 1)))
        else Ok (Some (with_found s (hd_error tl) (i + 2)))
      else
        do h <- str_has HELP a;
        if h then Ok None else scan s flag single (S i) tl
    end
  end.
(* lines 29-88; getopts (25-27) then returns [opt] *)
Definition getopt_has (s : gst) (flag : option bytes) (single : bool) : outcome (gst * bool) :=
  if (required s <? Z.of_nat (length (argv s)))%Z then
    do r <- scan s flag single (index s) (skipn (index s) (argv s));
    match r with Some s' => Ok (s', true) | None => Ok (s, false) end
  else Ok (s, false).
