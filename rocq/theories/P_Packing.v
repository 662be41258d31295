(** * P_Packing: the packaging script and the programs it runs (C105) *)
From Verif Require Import RustBase SpecProcess Package SpecPackage Packing SpecPacking Demo Pf_Packing.

(** ** C105: a package appears if every step succeeds, and only then *)
(** The script ends well exactly if all programs do, one after the other: the binary is stripped
    before it is packed and looked into, the archives hold the files of C104, and the package holds the
    archives. The package is put in place at the very end. *)
Theorem C105_package : forall (P : Programs) (temp code binary file : str) (source : str -> str) (effects : list effect),
  path_in code (lit "target/release/ripcalc") binary -> path_in temp (lit "data/usr/bin/ripcalc") file ->
  (package_script temp code source = (effects, ROk tt) <->
   exists count date stripped versions p data_archive control_archive deb path,
     says git_cmd count /\ says date_cmd date /\ strip_cmd (source binary) = Some stripped /\ says (readelf_cmd stripped) versions /\
     @debianize (told count date stripped versions) (source binary) = ROk p /\
     tar_xz (listing (data p)) = Some data_archive /\ tar_gz (listing (control_files p)) = Some control_archive /\
     ar_cmd (members control_archive data_archive) = Some deb /\ path_in code (deb_name p) path /\
     effects = map Ran (commands file (deb_name p)) ++ [Placed path deb; Printed (deb_name p ++ [byte 10])]).
Proof. exact c105_package. Qed.
Print Assumptions C105_package.
Example C105_package_ex :
  @package_script (demo_programs (fun _ => false)) (lit "/tmp/t") (lit "/code") (fun _ => demo_elf) =
  (map Ran (commands (lit "/tmp/t/data/usr/bin/ripcalc") (lit "ripcalc_57_amd64.deb")) ++
   [Placed (lit "/code/ripcalc_57_amd64.deb")
      (lit "[debian-binary 2.0" ++ byte 10 :: lit "][control.tar.gz gz:md5sums=95;control=339;][data.tar.xz xz:usr/share/doc/ripcalc/copyright=294;usr/share/doc/ripcalc/changelog.gz=10;usr/bin/ripcalc=20;]");
    Printed (lit "ripcalc_57_amd64.deb" ++ [byte 10])], ROk tt).
Proof. ex. Qed.

(** When it fails, the programs run are the first few, up to the one to blame, and nothing is left
    behind or printed. *)
Theorem C105_errors : forall (P : Programs) (temp code binary file : str) (source : str -> str) (effects : list effect) (e : py_error),
  path_in code (lit "target/release/ripcalc") binary -> path_in temp (lit "data/usr/bin/ripcalc") file ->
  package_script temp code source = (effects, RErr e) ->
  (exists name, effects = map Ran (firstn (List.length effects) (commands file name))) /\
  match List.length effects with
  | 1%nat => useless git_cmd /\ e = ValueError
  | 2%nat => useless date_cmd /\ e = ValueError \/ get_elf_machine (source binary) = RErr e
  | 3%nat => strip_cmd (source binary) = None /\ e = ValueError
  | 4%nat => (exists files, tar_xz files = None) /\ e = ValueError
  | 5%nat => exists stripped, strip_cmd (source binary) = Some stripped /\
       (useless (readelf_cmd stripped) /\ e = ValueError \/ exists versions, says (readelf_cmd stripped) versions /\ deb_depends versions = RErr e)
  | 6%nat => (exists files, tar_gz files = None) /\ e = ValueError
  | 7%nat => (exists c d, ar_cmd (members c d) = None) /\ e = ValueError
  | _ => False
  end.
Proof. exact c105_errors. Qed.
Print Assumptions C105_errors.
Example C105_errors_ex :
  let run f elf := let '(es, r) := @package_script (demo_programs (String.eqb f)) (lit "/tmp/t") (lit "/code/") (fun _ => elf) in (List.length es, r) in
  run "git"%string demo_elf = (1%nat, RErr ValueError) /\ run "date"%string demo_elf = (2%nat, RErr ValueError) /\
  run "none"%string (lit "#!/bin/sh") = (2%nat, RErr ValueError) /\ run "none"%string (firstn 19 demo_elf) = (2%nat, RErr StructError) /\
  run "strip"%string demo_elf = (3%nat, RErr ValueError) /\ run "tar_xz"%string demo_elf = (4%nat, RErr ValueError) /\
  run "readelf"%string demo_elf = (5%nat, RErr ValueError) /\ run "tar_gz"%string demo_elf = (6%nat, RErr ValueError) /\
  run "ar"%string demo_elf = (7%nat, RErr ValueError) /\ run "none"%string demo_elf = (9%nat, ROk tt).
Proof. ex. Qed.

(** Where the temporary directory is makes no difference to what remains. *)
Theorem C105_anywhere : forall (P : Programs) (temp temp' code : str) (source : str -> str),
  let '(es, r) := package_script temp code source in
  let '(es', r') := package_script temp' code source in
  r = r' /\ filter lasting es = filter lasting es' /\ List.length es = List.length es'.
Proof. exact c105_anywhere. Qed.
Print Assumptions C105_anywhere.
Example C105_anywhere_ex :
  let run t := let '(es, r) := @package_script (demo_programs (fun _ => false)) t (lit "/code") (fun _ => demo_elf) in (filter lasting es, r) in
  run (lit "/tmp/t") = run (lit "data/") /\ List.length (fst (run [])) = 2%nat.
Proof. ex. Qed.
