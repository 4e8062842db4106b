(* C94-C96: starting programs *)
From Verif Require Import Base StrModel StrProofs FdModel FdProofs ProcModel ProcProofs.
From Coq Require Import Permutation.
Local Open Scope Z_scope.

(* C94: the arguments are the pieces of the argument text between commas, after the command *)
Theorem C94_arguments : forall command args, nul_free command -> nul_free args -> ~ In COMMA command ->
  argv_of command (Some args) = Ok (Some (command :: pieces COMMA args)).
Proof. exact argv_some. Qed.

(* a comma in the command cuts it too *)
Theorem C94_arguments_any : forall command args, nul_free command -> nul_free args ->
  argv_of command (Some args) = Ok (Some (pieces COMMA (command ++ [COMMA] ++ args))).
Proof. exact argv_pieces. Qed.

(* no argument text: the program still gets one argument, an empty one *)
Theorem C94_no_arguments_refuted : forall command, nul_free command -> ~ In COMMA command -> argv_of command None = Ok (Some [command; []]).
Proof. exact argv_none. Qed.

(* the environment is the pieces of its text between semicolons *)
Theorem C94_environment : forall e, nul_free e -> Z.of_nat (length e) < 2 ^ 31 -> In EQUALS e -> In SEMI e -> env_of (Some e) = Ok (Some (pieces SEMI e)).
Proof. exact env_given. Qed.

(* a text without a semicolon, such as one variable alone, is dropped: the program gets no variable *)
Theorem C94_environment_alone_refuted : forall e, nul_free e -> Z.of_nat (length e) < 2 ^ 31 -> ~ In SEMI e ->
  exists r, env_of (Some e) = Ok r /\ given_env r = [].
Proof. exact env_ignored. Qed.

(* building an environment text *)
Theorem C94_addenv : forall l data, Forall (fun kv => (length (pair_text kv) < 2048)%nat) l ->
  exec_addenv data l = Ok (data ++ concat (map pair_text l)).
Proof. exact addenv_ok. Qed.

Theorem C94_addenv_long_refuted : forall data kv l, (2048 < length (pair_text kv))%nat -> exec_addenv data (kv :: l) = UB.
Proof. exact addenv_long. Qed.

(* what it builds has no end: reading it as a text goes past it *)
Theorem C94_addenv_end_refuted : forall data l r, nul_free data -> Forall (fun kv => nul_free (fst kv) /\ nul_free (snd kv)) l ->
  Forall (fun kv => (length (pair_text kv) < 2048)%nat) l -> exec_addenv data l = Ok r -> as_text r = UB.
Proof. exact addenv_unterminated. Qed.

(* were it ended, the program would get the variables, and an empty one *)
Theorem C94_addenv_pieces : forall l, Forall (fun kv => ~ In SEMI (fst kv) /\ ~ In SEMI (snd kv)) l ->
  pieces SEMI (concat (map pair_text l)) = map (fun kv => fst kv ++ [EQUALS] ++ snd kv) l ++ [[]].
Proof. exact pieces_pairs. Qed.

(* C95: waiting for a handle answers for the process it was given for, in any history of starts, waits, ends and
   other uses of the table; [wait_answer] is the specification *)
Theorem C95_wait_partial : forall s hs h p det t fin, preach s hs -> In (h, p, det) hs ->
  match exec_wait s h t fin with
  | Ok (_, r) => wait_answer det (kids s p) t fin = Ok r
  | Fuel => wait_answer det (kids s p) t fin = Fuel
  | _ => False
  end.
Proof. exact wait_exact. Qed.

Theorem C95_handles_differ : forall s hs, preach s hs -> NoDup (map (fun x => fst (fst x)) hs).
Proof. exact handles_distinct. Qed.

Theorem C95_wait_others : forall s hs h p det t fin s' r h2 p2 det2, preach s hs -> In (h, p, det) hs -> In (h2, p2, det2) hs -> h2 <> h ->
  exec_wait s h t fin = Ok (s', r) -> forall t2 fin2, wait_answer det2 (kids s' p2) t2 fin2 = wait_answer det2 (kids s p2) t2 fin2.
Proof. exact wait_others. Qed.

(* the end of a wait closes the descriptor numbered like the process *)
Theorem C95_closes_pid_refuted : forall s hs h p det t fin s' c, preach s hs -> In (h, p, det) hs -> exec_wait s h t fin = Ok (s', inl (Some c)) ->
  exists ev, closed (ptab s') = closed (ptab s) ++ [ev; p].
Proof. exact wait_closes. Qed.

(* a program that cannot be started is not reported: a handle comes back *)
Theorem C95_failed_start_refuted : forall s det ev, (exists i, pick (tab (ptab s)) ev (-1) = Some i) ->
  exists s' h, exec s det ev (-1) = Ok (s', h) /\ 0 <= h.
Proof. exact failed_start. Qed.

(* a timeout other than 0 is not one: a child that does not end is waited for for ever *)
Theorem C95_timeout_refuted : forall s hs h p t, preach s hs -> In (h, p, false) hs -> kids s p = Some Running -> t <> 0 ->
  exec_wait s h t Running = Fuel.
Proof.
  intros s hs h p t R I K T. pose proof (wait_exact s hs h p false t Running R I) as W. unfold wait_answer in W. rewrite K in W.
  rewrite (proj2 (Z.eqb_neq t 0) T) in W. destruct (exec_wait s h t Running) as [[s' r] | | |]; try discriminate W; tauto.
Qed.

(* C96: the end of a spawned program: the callback is called once with how it ended and the pipes are closed *)
Theorem C96_spawn_end_partial : forall io exitf p pid n k r, 0 < pid ->
  let l := spawning io exitf p pid 0 (repeat None n ++ Some k :: r) in
  exits l = (if exitf then [(code_of k, code_of k)] else []) /\ Permutation (closes l) (opened_pipes io false p).
Proof. exact spawn_exit. Qed.

(* the pipe for errors, opened when an environment is given, is never closed *)
Theorem C96_error_pipe_refuted : forall exitf p pid added waits f, In f (opened_pipes true true p) -> ~ In f (opened_pipes true false p) ->
  (f = err_r p \/ f = err_w p) /\ ~ In f (closes (spawning true exitf p pid added waits)).
Proof. exact spawn_error_pipe. Qed.

(* the output cannot be watched: the program is started, then left alone, its pipes open and no callback *)
Theorem C96_unwatched_refuted : forall io exitf p pid added waits, io = true -> added <> 0 ->
  spawning io exitf p pid added waits = [AStart; ARegister (out_w p); AFailed].
Proof. exact spawn_refused. Qed.

(* no such child (it could not be started, or is detached): the callback says it ended with 0 *)
Theorem C96_unstarted_refuted : forall io p pid n, 0 < pid -> exits (spawning io true p pid 0 (repeat None n)) = [(0, 0)].
Proof. exact spawn_unstarted. Qed.

(* C97: the program's standard streams are the descriptors asked for, the others are left alone *)
Theorem C97_redirect_partial : forall i o e f, (forall x, In x [i; o; e] -> x = 0 \/ x = -1 \/ (2 < x /\ f x <> None)) ->
  exists g, redirect false (-1) (info_fd i) (-1) (info_fd o) (-1) (info_fd e) f = Some g /\
    g 0 = asked f i 0 /\ g 1 = asked f o 1 /\ g 2 = asked f e 2 /\ forall x, 2 < x -> g x = f x.
Proof. exact redirect_exec. Qed.

(* a spawned program reads the one pipe and writes the other, and does not hold their far ends *)
Theorem C97_spawn_pipes : forall p f, 2 < in_r p -> 2 < in_w p -> 2 < out_r p -> 2 < out_w p ->
  f (in_r p) <> None -> f (out_w p) <> None -> NoDup [in_r p; in_w p; out_r p; out_w p] ->
  exists g, redirect true (in_r p) (in_w p) (out_r p) (out_w p) (-1) (-1) f = Some g /\
    g 0 = f (in_r p) /\ g 1 = f (out_w p) /\ g 2 = f 2 /\ g (in_w p) = None /\ g (out_r p) = None.
Proof. exact redirect_spawn. Qed.

(* errors sent to the starter's output while the output goes elsewhere: they go elsewhere too *)
Theorem C97_crossed_refuted : forall o f x y, 2 < o -> f o = Some x -> f 1 = Some y -> x <> y ->
  exists g, redirect false (-1) (-1) (-1) (info_fd o) (-1) (info_fd 1) f = Some g /\ g 2 = Some x /\ g 2 <> asked f 1 2.
Proof. exact redirect_err_out. Qed.

(* C98: the output callback is told what the program wrote, in order, each byte once, in pieces of up to 32 KiB *)
Theorem C98_output_partial : forall cap l, let r := spawn_out cap l in
  taken r = concat (told r) ++ inpipe r /\ Forall (fun d => d <> [] /\ (length d <= RD)%nat) (told r).
Proof. exact spawn_output. Qed.

(* what is written last is lost when the program ends before the loop turns *)
Theorem C98_last_output_refuted : forall cap l b, told (spawn_out cap (l ++ [SWrite b])) = told (spawn_out cap l).
Proof. exact spawn_last_lost. Qed.

(* a program that fills the pipe is never heard again, as the end watched is the one written to *)
Theorem C98_full_pipe_refuted : forall cap b l1 l2, (cap <= length b)%nat -> inpipe (spawn_out cap l1) = [] ->
  told (spawn_out cap (l1 ++ SWrite b :: l2)) = told (spawn_out cap l1).
Proof. exact spawn_full_lost. Qed.

Print Assumptions C97_redirect_partial.
Print Assumptions C97_spawn_pipes.
Print Assumptions C98_output_partial.
Print Assumptions C94_arguments.
Print Assumptions C94_environment.
Print Assumptions C94_addenv_pieces.
Print Assumptions C95_wait_partial.
Print Assumptions C95_wait_others.
Print Assumptions C96_spawn_end_partial.

(* ---- the premises can be met ---- *)
Example C94_ex : argv_of [108; 115] (Some [45; 108; 44; 47]) = Ok (Some [[108; 115]; [45; 108]; [47]]).
Proof. vm_compute. reflexivity. Qed.
Example C94_ex_env : env_of (Some [97; 61; 49; 59; 98; 61; 50]) = Ok (Some [[97; 61; 49]; [98; 61; 50]]).
Proof. vm_compute. reflexivity. Qed.
Example C94_ex_addenv : exec_addenv [] [([97], [49])] = Ok [97; 61; 49; 59].
Proof. vm_compute. reflexivity. Qed.

Definition ex_p0 := {| ptab := fst0 16; pdet := fun _ => false; pps := fun _ => -1; kids := fun _ => None |}.
Example C95_ex : match exec ex_p0 false 7 100 with
  | Ok (s, h) => 0 <= h /\ preach s [(h, 100, false)] /\
                 match exec_wait s h 0 Running with Ok (_, r) => r = inr ETimedout | _ => False end /\
                 match exec_wait s h 1 (Killed 9) with Ok (_, r) => r = inl (Some (-9)) | _ => False end
  | _ => False end.
Proof.
  destruct (exec ex_p0 false 7 100) as [[s h] | | |] eqn:E.
  - assert (R : preach s [(h, 100, false)]).
    { apply (pr_exec ex_p0 [] false 7 100 s h); [apply pr_start | lia | right; split; [lia | reflexivity] | exact E]. }
    destruct (exec_ok _ _ _ _ _ _ E) as (H0 & _ & _ & _ & _ & _ & K). split; [exact H0|]. split; [exact R|].
    assert (KK : kids s 100 = Some Running) by (rewrite K; reflexivity).
    pose proof (wait_exact _ _ h 100 false 0 Running R (or_introl eq_refl)) as W1.
    pose proof (wait_exact _ _ h 100 false 1 (Killed 9) R (or_introl eq_refl)) as W2.
    unfold wait_answer in *. rewrite KK in *. cbn in W1, W2.
    destruct (exec_wait s h 0 Running) as [[? ?] | | |]; try discriminate W1; try tauto.
    destruct (exec_wait s h 1 (Killed 9)) as [[? ?] | | |]; try discriminate W2; try tauto.
    split; congruence.
  - exfalso; revert E; vm_compute; intros X; discriminate X.
  - exfalso; revert E; vm_compute; intros X; discriminate X.
  - exfalso; revert E; vm_compute; intros X; discriminate X.
Qed.

Example C97_ex : exists g, redirect false (-1) (info_fd (-1)) (-1) (info_fd 5) (-1) (info_fd (-1)) (fun x => if x =? 5 then Some 50 else if x <? 3 then Some x else None) = Some g
  /\ g 0 = Some 0 /\ g 1 = Some 50 /\ g 2 = Some 2.
Proof. eexists. split; [reflexivity|]. vm_compute. auto. Qed.
Example C98_ex : told (spawn_out 8 [SWrite [1; 2]; SPoll; SWrite [3]; SPoll; SWrite [4]]) = [[1; 2]; [3]].
Proof. vm_compute. reflexivity. Qed.
