(** * P_Revision: the versions of packages (C106) *)
From Verif Require Import RustBase SpecText Package SpecPackage Revision SpecRevision Demo Pf_Revision.

(** ** C106: the package of a later revision is the newer one *)
(** Debian: of two packages the one made after more commits is newer; what else went into them
    does not matter. *)
Theorem C106_debian : forall (T T' : Tools) (elf elf' : str) (p p' : package) (n n' : N) (count count' version version' : str),
  usual 10 n count -> @git_count T = count ++ [byte 10] -> @debianize T elf = ROk p -> field (control p) (lit "Version") version ->
  usual 10 n' count' -> @git_count T' = count' ++ [byte 10] -> @debianize T' elf' = ROk p' -> field (control p') (lit "Version") version' ->
  compare_debian version version' = (n ?= n').
Proof. exact c106_debian. Qed.
Print Assumptions C106_debian.
Example C106_debian_ex :
  compare_debian (lit "9") (lit "57") = Lt /\ compare_debian (lit "100") (lit "57") = Gt /\ compare_debian (lit "57") (lit "57") = Eq /\
  match @debianize demo_tools demo_elf with ROk p => nth 2 (split_on (byte 10) (control p)) [] = lit "Version: 57" | RErr _ => False end.
Proof. ex. Qed.

(** Arch Linux: likewise, whatever the hashes of the commits. *)
Theorem C106_arch : forall (n n' : N) (count count' hash hash' : str),
  usual 10 n count -> usual 10 n' count' -> n <> n' ->
  compare_arch (arch_version (count ++ [byte 10]) hash) (arch_version (count' ++ [byte 10]) hash') = (n ?= n').
Proof. exact c106_arch. Qed.
Print Assumptions C106_arch.
Example C106_arch_ex :
  arch_version (lit "21" ++ [byte 10]) (lit "483a7af" ++ [byte 10]) = lit "r21.483a7af-1" /\
  compare_arch (lit "r21.483a7af-1") (lit "r100.0000000-1") = Lt /\ compare_arch (lit "r21.483a7af-1") (lit "r9.fffffff-1") = Gt.
Proof. ex. Qed.

(** The version is one that makepkg allows: it is not empty and has no colon, slash, hyphen or white
    space. *)
Theorem C106_arch_allowed : forall (n : N) (count hash : str),
  usual 10 n count -> Forall (fun c => In c (lit "0123456789abcdef")) hash ->
  pkgver (count ++ [byte 10]) (hash ++ [byte 10]) <> [] /\
  Forall (fun c => ~ In c (lit ":/-") /\ ~ blank c) (pkgver (count ++ [byte 10]) (hash ++ [byte 10])).
Proof. exact c106_arch_allowed. Qed.
Print Assumptions C106_arch_allowed.
Example C106_arch_allowed_ex : pkgver (lit "21" ++ [byte 10]) (lit "483a7af" ++ [byte 10]) = lit "r21.483a7af".
Proof. ex. Qed.

(** After equally many commits (on two branches, say) it may be unable to tell the packages
    apart, though the versions differ. *)
Theorem C106_arch_equal_refuted : exists count hash hash',
  let hex h := List.length h = 7%nat /\ Forall (fun c => In c (lit "0123456789abcdef")) h in
  usual 10 21 count /\ hex hash /\ hex hash' /\
  let v := arch_version (count ++ [byte 10]) (hash ++ [byte 10]) in
  let v' := arch_version (count ++ [byte 10]) (hash' ++ [byte 10]) in
  v <> v' /\ compare_arch v v' = Eq.
Proof. exact c106_arch_equal_refuted. Qed.
Print Assumptions C106_arch_equal_refuted.
Example C106_arch_equal_refuted_ex :
  compare_arch (lit "r21.00a0012-1") (lit "r21.0a00012-1") = Eq /\ compare_arch (lit "r21.483a7af-1") (lit "r21.483a7b0-1") = Lt.
Proof. ex. Qed.
