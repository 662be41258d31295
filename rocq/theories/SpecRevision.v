(** * SpecRevision: how package managers compare versions (C106)

    None of this is in /repo: it says which of two packages dpkg and pacman take to be newer. *)
From Verif Require Import RustBase SpecText.

(** The longest beginning of characters that satisfy [p], and the rest. *)
Fixpoint span (p : ascii -> bool) (s : str) : str * str :=
  match s with
  | c :: s' => if p c then let '(a, b) := span p s' in (c :: a, b) else ([], s)
  | [] => ([], [])
  end.
(** What is before and after the last [c]. *)
Definition cut_last (c : ascii) (s : str) : option (str * str) :=
  match span (fun d => negb (Ascii.eqb d c)) (rev s) with
  | (_, []) => None
  | (b, _ :: a) => Some (rev a, rev b)
  end.

Definition number (s : str) : N := match numeral 10 s with Some n => n | None => 0 end.
Definition between (a b : N) (c : ascii) : bool := (a <=? N_of_ascii c) && (N_of_ascii c <=? b).
Definition numeric (c : ascii) : bool := between 48 57 c.
Definition alphabetic (c : ascii) : bool := between 65 90 c || between 97 122 c.

Definition first_of (c d : comparison) : comparison := match c with Eq => d | _ => c end.

(** ** Debian (Debian Policy 5.6.12; dpkg, lib/dpkg/version.c) *)
(** Letters come before other characters, and a tilde even before the end. *)
Definition weight (c : ascii) : Z :=
  if Ascii.eqb c "~" then (-1)%Z
  else if alphabetic c then Z.of_N (N_of_ascii c) else (Z.of_N (N_of_ascii c) + 256)%Z.
Fixpoint compare_weights (a b : str) : comparison :=
  match a, b with
  | [], [] => Eq
  | c :: a', [] => (weight c ?= 0)%Z
  | [], d :: b' => (0 ?= weight d)%Z
  | c :: a', d :: b' => first_of (weight c ?= weight d)%Z (compare_weights a' b')
  end.
(** By turns, what comes before the next number, and that number. *)
Fixpoint compare_parts (fuel : nat) (a b : str) : comparison :=
  match fuel with
  | O => Eq
  | S fuel' =>
      match a, b with
      | [], [] => Eq
      | _, _ =>
          let '(x, a) := span (fun c => negb (numeric c)) a in
          let '(y, b) := span (fun c => negb (numeric c)) b in
          let '(m, a) := span numeric a in
          let '(n, b) := span numeric b in
          first_of (compare_weights x y) (first_of (number m ?= number n) (compare_parts fuel' a b))
      end
  end.
Definition compare_debian_part (a b : str) : comparison := compare_parts (S (List.length a + List.length b)) a b.
(** The epoch, the version and the revision of a version. *)
Definition debian_parts (s : str) : N * str * str :=
  let '(epoch, s) := match span (fun c => negb (Ascii.eqb c ":")) s with (e, _ :: s') => (number e, s') | (_, []) => (0, s) end in
  match cut_last "-" s with Some (v, r) => (epoch, v, r) | None => (epoch, s, []) end.
Definition compare_debian (s t : str) : comparison :=
  let '(e, v, r) := debian_parts s in
  let '(e', v', r') := debian_parts t in
  first_of (e ?= e') (first_of (compare_debian_part v v') (compare_debian_part r r')).

(** ** Arch Linux (pacman, lib/libalpm/version.c: rpmvercmp, parseEVR, alpm_pkg_vercmp) *)
Fixpoint compare_codes (a b : str) : comparison :=
  match a, b with
  | [], [] => Eq
  | [], _ :: _ => Lt
  | _ :: _, [] => Gt
  | c :: a', d :: b' => first_of (N_of_ascii c ?= N_of_ascii d) (compare_codes a' b')
  end.
(** When one of them has come to its end: more is newer, unless it begins with a letter. *)
Definition compare_ends (a b : str) : comparison :=
  match a, b with
  | [], [] => Eq
  | [], d :: _ => if alphabetic d then Gt else Lt
  | c :: _, _ => if alphabetic c then Lt else Gt
  end.
Fixpoint compare_segments (fuel : nat) (a b : str) : comparison :=
  match fuel with
  | O => Eq
  | S fuel' =>
      match a, b with
      | [], _ | _, [] => compare_ends a b
      | _, _ =>
          let '(sep, a) := span (fun c => negb (numeric c || alphabetic c)) a in
          let '(sep', b) := span (fun c => negb (numeric c || alphabetic c)) b in
          match a, b with
          | [], _ | _, [] => compare_ends a b
          | c :: _, _ =>
              first_of (Nat.compare (List.length sep) (List.length sep'))
                (if numeric c then
                   let '(m, a) := span numeric a in
                   let '(n, b) := span numeric b in
                   match n with [] => Gt | _ => first_of (number m ?= number n) (compare_segments fuel' a b) end
                 else
                   let '(x, a) := span alphabetic a in
                   let '(y, b) := span alphabetic b in
                   match y with [] => Lt | _ => first_of (compare_codes x y) (compare_segments fuel' a b) end)
          end
      end
  end.
Definition compare_arch_part (a b : str) : comparison := compare_segments (S (List.length a + List.length b)) a b.
(** The epoch, the version and the release of a version. *)
Definition arch_parts (s : str) : str * str * option str :=
  let '(epoch, s) := match span numeric s with
                     | (e, ":"%char :: s') => (match e with [] => lit "0" | _ => e end, s')
                     | _ => (lit "0", s)
                     end in
  match cut_last "-" s with Some (v, r) => (epoch, v, Some r) | None => (epoch, s, None) end.
Definition compare_arch (s t : str) : comparison :=
  let '(e, v, r) := arch_parts s in
  let '(e', v', r') := arch_parts t in
  first_of (compare_arch_part e e') (first_of (compare_arch_part v v')
    (match r, r' with Some r, Some r' => compare_arch_part r r' | _, _ => Eq end)).

(** Known answers (from the manuals and test suites of the two programs). *)
Definition in_order (cmp : str -> str -> comparison) (l : list string) : bool :=
  forallb (fun '(a, b) => match cmp (lit a) (lit b), cmp (lit b) (lit a) with Lt, Gt => true | _, _ => false end) (combine l (tl l)).
Example debian_order :
  in_order compare_debian ["1.0~beta1~svn1245"; "1.0~beta1"; "1.0"; "1.0-1"; "1.0-2"; "1.0a"; "1.0+b"; "1.2"; "1.10"; "1:0.9"]%string = true /\
  compare_debian (lit "0:01.0") (lit "1.00") = Eq.
Proof. vm_compute; auto. Qed.
Example arch_order :
  in_order compare_arch ["1.0a"; "1.0b"; "1.0beta"; "1.0p"; "1.0pre"; "1.0rc"; "1.0"; "1.0.a"; "1.0.1"]%string = true /\
  in_order compare_arch ["1"; "1.0"; "1.1"; "1.1.1"; "1.2"; "2.0"; "3.0.0"; "1:0.1"]%string = true /\
  in_order compare_arch ["1.0-1"; "1.0-2"; "1.1-1"]%string = true /\ compare_arch (lit "1.0") (lit "1.0-1") = Eq.
Proof. vm_compute; auto. Qed.
