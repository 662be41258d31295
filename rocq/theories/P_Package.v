(** * P_Package: the packaging script (C102 to C104) *)
From Verif Require Import RustBase SpecText SpecOrdering Package SpecPackage Demo Pf_Package.

(** ** C102: the package is labelled with the architecture of the binary *)
Theorem C102_architecture : forall (f name : str), get_elf_machine f = ROk name <-> architecture f name.
Proof. exact c102_architecture. Qed.
Print Assumptions C102_architecture.
Example C102_architecture_ex :
  get_elf_machine demo_elf = ROk (lit "amd64") /\ architecture demo_elf (lit "amd64").
Proof.
  split; [ex|]. exists (byte 1), (byte 62), (byte 0), 62. repeat split.
  - now exists (repeat (byte 0) 9), [byte 3; byte 0], (lit "rest").
  - now left.
  - vm_compute; tauto.
Qed.

(** The ways it fails: an unknown machine, a file that ends within the header, or else. *)
Theorem C102_errors : forall (f : str),
  (get_elf_machine f = RErr KeyError <->
     exists order m0 m1 n, elf_header f (byte 2) order (byte 1) m0 m1 /\ machine_number order m0 m1 n /\ forall name, ~ In (n, name) debian_names) /\
  (get_elf_machine f = RErr StructError <->
     exists order rest, (order = byte 1 \/ order = byte 2) /\ f = byte 127 :: lit "ELF" ++ [byte 2; order; byte 1] ++ rest /\ (List.length rest < 13)%nat).
Proof. exact c102_errors. Qed.
Print Assumptions C102_errors.
Example C102_errors_ex :
  get_elf_machine (firstn 18 demo_elf ++ [byte 243; byte 0]) = RErr KeyError /\ get_elf_machine (firstn 19 demo_elf) = RErr StructError /\
  get_elf_machine (lit "#!/bin/sh") = RErr ValueError.
Proof. ex. Qed.

(** A 32-bit binary is always refused, although the script has names for 32-bit machines. *)
Theorem C102_32_bits_refused : forall (f : str) (order version m0 m1 : ascii),
  elf_header f (byte 1) order version m0 m1 -> get_elf_machine f = RErr ValueError.
Proof. exact c102_32_bits_refused. Qed.
Print Assumptions C102_32_bits_refused.
Example C102_32_bits_refused_ex :
  let f := byte 127 :: lit "ELF" ++ [byte 1; byte 1; byte 1] ++ repeat (byte 0) 9 ++ [byte 3; byte 0] ++ [byte 3; byte 0] in
  get_elf_machine f = RErr ValueError.
Proof. ex. Qed.

(** That only little-endian binaries get names that say so is false. *)
Theorem C102_byte_order_refuted : exists (f name : str) (m0 m1 : ascii),
  elf_header f (byte 2) (byte 2) (byte 1) m0 m1 /\ In name [lit "ppc64el"; lit "mips64el"] /\ get_elf_machine f = ROk name.
Proof. exact c102_byte_order_refuted. Qed.
Print Assumptions C102_byte_order_refuted.

(** Nothing after the first 20 bytes matters. *)
Theorem C102_header_only : forall (f g : str), firstn 20 f = firstn 20 g -> get_elf_machine f = get_elf_machine g.
Proof. exact c102_header_only. Qed.
Print Assumptions C102_header_only.
Example C102_header_only_ex :
  firstn 20 demo_elf = firstn 20 (demo_elf ++ lit "x") /\ get_elf_machine (firstn 20 demo_elf) = ROk (lit "amd64").
Proof. ex. Qed.

(** ** C103: the package depends on the newest version the binary needs of each library *)
Theorem C103_line : forall (l lib v : str), ~ In (byte 10) l ->
  (re_match version_line_re l = Some [lib; v] <-> version_line l lib v).
Proof. exact c103_line. Qed.
Print Assumptions C103_line.
Example C103_line_ex :
  re_match version_line_re (lit "  0x0010:   Name: GLIBC_2.3.4  Flags: none  Version: 12") = Some [lit "GLIBC"; lit "2.3.4"] /\
  re_match version_line_re (lit "  000000: Version: 1  File: libc.so.6  Cnt: 4") = None /\
  re_match version_line_re (lit "  0x0010:   Name: GLIBC_PRIVATE  Flags: none  Version: 12") = None.
Proof. ex. Qed.

Theorem C103_depends : forall (out deps : str), deb_depends out = ROk deps <-> dependencies out deps.
Proof. exact c103_depends. Qed.
Print Assumptions C103_depends.
Example C103_depends_ex :
  deb_depends demo_readelf = ROk (lit "libc6 (>= 2.18), libgcc1 (>= 4.2.0)") /\ deb_depends [] = ROk [].
Proof. ex. Qed.

(** It fails for versions that are no numbers with dots, and for other libraries. *)
Theorem C103_errors : forall (out : str),
  (deb_depends out = RErr ValueError <-> exists lib t, needs out lib t /\ forall v, ~ version_text t v) /\
  (deb_depends out = RErr KeyError <->
     (forall lib t, needs out lib t -> exists v, version_text t v) /\
     exists lib t, needs out lib t /\ ~ In lib [lit "GLIBC"; lit "GCC"]).
Proof. exact c103_errors. Qed.
Print Assumptions C103_errors.
Example C103_errors_ex :
  let out l := lit "Version needs section '.gnu.version_r' contains 1 entry:" ++ byte 10 :: lit "  0x0010:   Name: " ++ lit l ++ lit "  Flags: none  Version: 12" in
  deb_depends (out "GLIBC_2..4"%string) = RErr ValueError /\ deb_depends (out "ZLIB_1.2"%string) = RErr KeyError /\
  deb_depends (out "ZLIB_1."%string) = RErr ValueError /\ deb_depends (out "GLIBC_02.4"%string) = ROk (lit "libc6 (>= 2.4)").
Proof. ex. Qed.

(** The order of the lines, repetitions and the rest of the output do not matter. *)
Theorem C103_order : forall (out out' : str),
  (forall lib t, needs out lib t <-> needs out' lib t) -> deb_depends out = deb_depends out'.
Proof. exact c103_order. Qed.
Print Assumptions C103_order.
Example C103_order_ex :
  let entry l := lit "  0x0010:   Name: " ++ lit l ++ lit "  Flags: none  Version: 12" in
  let out ls := py_lines (lit "Version needs section '.gnu.version_r' contains 1 entry:" :: map entry ls) in
  deb_depends (out ["GCC_3.0"; "GLIBC_2.9"; "GLIBC_2.17"]%string) = deb_depends (out ["GLIBC_2.17"; "GLIBC_2.9"; "GCC_3.0"; "GLIBC_2.9"]%string) /\
  deb_depends (out ["GCC_3.0"; "GLIBC_2.9"; "GLIBC_2.17"]%string) = ROk (lit "libc6 (>= 2.17), libgcc1 (>= 3.0)").
Proof. ex. Qed.

(** ** C104: the package describes what it holds *)
(** Just these files: the stripped binary, a changelog, a copyright notice. *)
Theorem C104_data : forall (T : Tools) (elf : str) (p : package),
  debianize elf = ROk p ->
  exists changelog copyright,
    data p = [(lit "usr/bin/ripcalc", strip elf); (lit "usr/share/doc/ripcalc/changelog.gz", gzip changelog); (lit "usr/share/doc/ripcalc/copyright", copyright)].
Proof. exact c104_data. Qed.
Print Assumptions C104_data.
Example C104_data_ex :
  match @debianize demo_tools demo_elf with ROk p => map fst (data p) = map lit ["usr/bin/ripcalc"; "usr/share/doc/ripcalc/changelog.gz"; "usr/share/doc/ripcalc/copyright"]%string | RErr _ => False end.
Proof. ex. Qed.

(** The changelog has Debian's form: a heading with the revision, indented changes, the author
    and the date; the copyright notice names the license. *)
Theorem C104_documents : forall (T : Tools) (elf revision date : str) (p : package),
  git_count = revision ++ [byte 10] -> decimal revision -> mail_date = date ++ [byte 10] -> debianize elf = ROk p ->
  exists changes copyright, Forall (fun l => l = [] \/ exists l', l = lit "  * " ++ l') changes /\
    In (lit "usr/share/doc/ripcalc/changelog.gz",
        gzip (text_of_lines ((lit "ripcalc (" ++ revision ++ lit ") unstable; urgency=medium") :: changes ++ [lit " -- Ondřej Hošek <ondra.hosek@gmail.com>  " ++ date; []]))) (data p) /\
    In (lit "usr/share/doc/ripcalc/copyright", copyright) (data p) /\
    field copyright (lit "Upstream-Name") (lit "ripcalc") /\ field copyright (lit "Files") (lit "*") /\
    field copyright (lit "Copyright") (lit "2021 Ondřej Hošek <ondra.hosek@gmail.com>") /\ field copyright (lit "License") (lit "CC0-1.0").
Proof. exact c104_documents. Qed.
Print Assumptions C104_documents.
Example C104_documents_ex :
  match @debianize demo_tools demo_elf with
  | ROk p => match data p with
             | [_; (_, changelog); (_, copyright)] =>
                 firstn 2 (split_on (byte 10) changelog) = [lit "ripcalc (57) unstable; urgency=medium"; []] /\
                 nth 7 (split_on (byte 10) copyright) [] = lit "License: CC0-1.0"
             | _ => False
             end
  | RErr _ => False
  end.
Proof. ex. Qed.

Theorem C104_succeeds : forall (T : Tools) (elf : str),
  (exists p, debianize elf = ROk p) <-> (exists name, architecture elf name) /\ (exists deps, dependencies (readelf (strip elf)) deps).
Proof. exact c104_succeeds. Qed.
Print Assumptions C104_succeeds.
Example C104_succeeds_ex :
  (exists p, @debianize demo_tools demo_elf = ROk p) /\ @debianize demo_tools (lit "#!/bin/sh") = RErr ValueError.
Proof. split; [eexists; vm_compute; reflexivity | ex]. Qed.

(** The name of the package and the fields of its control file. *)
Theorem C104_control : forall (T : Tools) (elf revision : str) (p : package),
  git_count = revision ++ [byte 10] -> decimal revision -> debianize elf = ROk p ->
  exists name deps kib, architecture elf name /\ dependencies (readelf (strip elf)) deps /\ usual 10 (size (data p) / 1024) kib /\
    deb_name p = lit "ripcalc_" ++ revision ++ lit "_" ++ name ++ lit ".deb" /\
    field (control p) (lit "Package") (lit "ripcalc") /\ field (control p) (lit "Version") revision /\
    field (control p) (lit "Architecture") name /\ field (control p) (lit "Depends") deps /\ field (control p) (lit "Installed-Size") kib.
Proof. exact c104_control. Qed.
Print Assumptions C104_control.
Example C104_control_ex :
  match @debianize demo_tools demo_elf with
  | ROk p => deb_name p = lit "ripcalc_57_amd64.deb" /\
             firstn 4 (split_on (byte 10) (control p)) = map lit ["Package: ripcalc"; "Source: ripcalc"; "Version: 57"; "Architecture: amd64"]%string /\
             nth 5 (split_on (byte 10) (control p)) [] = lit "Installed-Size: 2" /\
             nth 6 (split_on (byte 10) (control p)) [] = lit "Depends: libc6 (>= 2.18), libgcc1 (>= 4.2.0)"
  | RErr _ => False
  end.
Proof. ex. Qed.

(** One line with its checksum for each file, in the order of the checksums. *)
Theorem C104_md5sums : forall (T : Tools) (elf : str) (p : package),
  debianize elf = ROk p ->
  exists files, Permutation files (data p) /\
    md5sums p = text_of_lines (map (fun file => md5 (snd file) ++ lit "  " ++ fst file) files) /\
    StronglySorted (fun a b => md5 (snd a) = md5 (snd b) /\ before_in_alphabet (fst a) (fst b) \/ before_in_alphabet (md5 (snd a)) (md5 (snd b))) files.
Proof. exact c104_md5sums. Qed.
Print Assumptions C104_md5sums.
Example C104_md5sums_ex :
  match @debianize demo_tools demo_elf with
  | ROk p => md5sums p = text_of_lines (map lit ["126  usr/share/doc/ripcalc/copyright"; "654  usr/bin/ripcalc"; "b8  usr/share/doc/ripcalc/changelog.gz"]%string)
  | RErr _ => False
  end.
Proof. ex. Qed.
