(** * P_Synonym: command lines that say the same (C100) *)
From Verif Require Import RustBase Addr Net Console Main Messages Process Sink Screen Spec SpecText SpecShow SpecMain SpecProcess SpecMessages SpecTold SpecRefuse SpecSynonym Demo Pf_Synonym.

(** ** C100: the program answers what is meant, not how it is written *)
Theorem C100_run : forall (R : Rust) (T : Terminal) (prog prog' : str) (ss ts : list str),
  synonyms ss ts -> do_main (prog :: ss) = do_main (prog' :: ts).
Proof. exact c100_run. Qed.
Print Assumptions C100_run.
Example C100_run_ex :
  synonyms [lit "-r"; lit "10.0.0.0/8"; lit "16"] [lit "--resize"; lit "10.1.2.3/-0.255.255.255"; lit "255.255.0.0"] /\
  @do_main debug_env plain [lit "ripcalc"; lit "-r"; lit "10.0.0.0/8"; lit "9"] =
  @do_main debug_env plain [lit "./ripcalc"; lit "--resize"; lit "10.1.2.3/-0.255.255.255"; lit "255.128.0.0"] /\
  @do_main debug_env plain [lit "ripcalc"; lit "-d"; lit "x"; lit "10.0.0.0"] <>
  @do_main debug_env plain [lit "ripcalc"; lit "-d"; lit "10.0.0.0"; lit "x"].
Proof. exact c100_run_ex. Qed.

(** Also as a process, into whatever files, onto whatever screen. *)
Theorem C100_process : forall (U : Unicode) (R : Rust) (T : Terminal) (prog prog' : str) (ss ts : list str),
  synonyms ss ts -> unicode prog -> unicode prog' ->
  main (prog :: ss) = main (prog' :: ts) /\
  forall S : Stdio,
    (forall out err : kind, main_on out err (prog :: ss) = main_on out err (prog' :: ts)) /\
    (forall (k : kind) (blame : str), main_screen k blame (prog :: ss) = main_screen k blame (prog' :: ts)).
Proof. exact c100_process. Qed.
Print Assumptions C100_process.
Example C100_process_ex :
  @main no_unicode debug_env plain [lit "ripcalc"; lit "-m"; lit "10.0.0.0/9"; lit "x"; lit "10.128.0.0/9"] =
  @main no_unicode debug_env plain [lit "r"; lit "--minimize"; lit "10.127.0.1/255.128.0.0"; lit "x"; lit "10.128.0.0/09"] /\
  @main no_unicode debug_env plain [lit "ripcalc"; lit "-s"; lit "10.0.0.0/29"; lit "2"; lit "1_0"] =
  @main no_unicode debug_env plain [lit "ripcalc"; lit "--split"; lit "010.0.0.7/29"; lit "+2"; lit "010"].
Proof. ex. Qed.

(** One network: the same answer just for texts with the same meaning, or without meaning
    for the same reason. *)
Theorem C100_describe : forall (U : Unicode) (R : Rust) (T : Terminal) (prog s t : str),
  unicode prog -> unicode s -> unicode t -> ~ In s command_words -> ~ In t command_words ->
  (main [prog; s] = main [prog; t] <->
   same_meaning s t /\ forall e, netspec_refused usize_bits s e <-> netspec_refused usize_bits t e).
Proof. exact c100_describe. Qed.
Print Assumptions C100_describe.
Example C100_describe_ex :
  let out s := @main no_unicode debug_env plain [lit "ripcalc"; s] in
  out (lit "10.0.0.256/8") = out (lit "10.0.0.256/9") /\ out (lit "10.0.0.1/8") = out (lit "010.0.0.1/255.0.0.0") /\
  out (lit "x") <> out (lit "y").
Proof. exact c100_describe_ex. Qed.
