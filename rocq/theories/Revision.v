(** * Revision: model of /repo/contrib/PKGBUILD.archlinux, as far as it computes *)
From Verif Require Import RustBase Package.

(** PKGBUILD.archlinux:15-18 [pkgver], from what git rev-list --count and git rev-parse --short print;
    [$(...)] drops line breaks at the end. *)
Definition pkgver (count hash : str) : str := lit "r" ++ rstrip_newlines count ++ lit "." ++ rstrip_newlines hash.

(** PKGBUILD.archlinux:5. *)
Definition pkgrel : str := lit "1".

(** The version of the package, as makepkg puts it together. *)
Definition arch_version (count hash : str) : str := pkgver count hash ++ lit "-" ++ pkgrel.
