From Verif Require Import Base EsModel EsProofs.
#[local] Open Scope Z_scope.

(* ---- C135: signals as exceptions ---- *)
(* up to 32 different signals: each is thrown under the name asked for last, or has its default action *)
Theorem C135_latest_partial : forall can D ops s, (List.length D <= 32)%nat -> within D ops -> deliver (run can ops) s = latest can (history ops []) s.
Proof. exact run_latest. Qed.
Theorem C135_start : forall can s, deliver (run can [Setup]) s =
  match find (fun e => fst e =? s) thirteen with Some (_, n) => if can s then Throw (Some n) else Dfl | None => Dfl end.
Proof. exact setup_start. Qed.
(* going back to the defaults: all of them but one *)
Theorem C135_default_partial : forall can ops D s, (List.length D <= 32)%nat -> within D ops -> In s [11; 6; 8; 4; 2; 15; 3; 1; 28; 5; 14; 7] ->
  deliver (run can (ops ++ [Default])) s = Dfl.
Proof. exact default_all. Qed.
Theorem C135_default_pipe_refuted : forall can, can 13 = true -> deliver (run can [Setup; Default]) 13 = Throw (Some "sig_pipe"%string).
Proof. exact default_pipe. Qed.
(* after 32 signals no other can be registered, whatever is reset in between *)
Theorem C135_full_refuted : forall can l s n ops, NoDup (map fst l) -> List.length l = 32%nat -> (forall e, In e l -> can (fst e) = true) -> ~ In s (map fst l) ->
  deliver (run can (map (fun e => Reg (fst e) (snd e)) l ++ ops ++ [Reg s n])) s = Dfl.
Proof. exact full_refuted. Qed.
(* one signal registered before the set-up: none of the thirteen is installed *)
Theorem C135_setup_late_refuted : forall can s n q, q <> s -> deliver (run can [Reg s n; Setup]) q = Dfl.
Proof. exact setup_late. Qed.
(* one signal reset: the next set-up (the next guard block) takes the name given by the program away *)
Theorem C135_setup_again_refuted : forall can n t, can 11 = true -> t <> 11 -> deliver (run can [Setup; Reg 11 n; Res t; Setup]) 11 = Throw (Some "sig_segv"%string).
Proof. exact setup_again. Qed.
Example C135_ex : let can := fun s => negb ((s =? 9) || (s =? 19)) in
  deliver (run can [Setup; Reg 10 "mine"; Res 2]) 10 = Throw (Some "mine"%string) /\ deliver (run can [Setup; Reg 10 "mine"; Res 2]) 2 = Dfl /\
  deliver (run can [Setup; Reg 9 "kill"]) 9 = Dfl /\ deliver (run can [Setup; Reg 11 "mine"]) 11 = Throw (Some "mine"%string) /\
  (exists l, NoDup (map fst l) /\ List.length l = 32%nat /\ (forall e : Z * string, In e l -> can (fst e) = true) /\ ~ In 64 (map fst l)).
Proof. split; [reflexivity|]. split; [reflexivity|]. split; [reflexivity|]. split; [reflexivity|].
  exists (map (fun k => (k, ""%string)) [1;2;3;4;5;6;7;8;10;11;12;13;14;15;16;17;18;20;21;22;23;24;25;26;27;28;29;30;31;32;33;34]).
  split; [repeat (constructor; [cbn; intuition discriminate|]); constructor|]. split; [reflexivity|].
  split; [intros e E; cbn in E; repeat (destruct E as [<-|E]; [reflexivity|]); easy|]. cbn. intuition discriminate. Qed.
Print Assumptions C135_latest_partial. Print Assumptions C135_start. Print Assumptions C135_default_partial. Print Assumptions C135_default_pipe_refuted.
Print Assumptions C135_full_refuted. Print Assumptions C135_setup_late_refuted. Print Assumptions C135_setup_again_refuted.
