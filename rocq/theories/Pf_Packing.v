(** * Pf_Packing: proofs for P_Packing (C105) *)
From Verif Require Import RustBase Messages Utf8Facts SpecText SpecOrdering Pf_Package SpecProcess Package SpecPackage Packing SpecPacking.

Local Arguments lit : simpl never.

(** ** Paths *)
Definition slashed (dir : str) : str := py_join dir [].
Lemma py_join_slashed dir name : py_join dir name = slashed dir ++ name.
Proof.
  unfold slashed, py_join. destruct (rev dir) as [|c r] eqn:E; [reflexivity|].
  destruct (Ascii.eqb c "/"); now rewrite <- !app_assoc.
Qed.
Lemma path_in_join dir name path : path_in dir name path -> path = py_join dir name.
Proof.
  unfold path_in, py_join. destruct (rev dir) as [|c r] eqn:E.
  - assert (dir = []) by (rewrite <- (rev_involutive dir), E; reflexivity). subst. intros [[_ ->]|[N _]]; [reflexivity|]. destruct N. now left.
  - assert (D : dir = rev r ++ [c]) by (rewrite <- (rev_involutive dir), E; reflexivity).
    destruct (Ascii.eqb_spec c "/") as [->|N]; intros [[H ->]|[H ->]]; try reflexivity.
    + destruct H. right. now exists (rev r).
    + exfalso. destruct H as [H|[d H]]; [subst; destruct (rev r); discriminate|]. rewrite H in D. apply app_inj_tail in D. destruct D as [_ D]. now apply N.
Qed.
Lemma join_path_in dir name : path_in dir name (py_join dir name).
Proof.
  unfold path_in, py_join. destruct (rev dir) as [|c r] eqn:E.
  - assert (dir = []) by (rewrite <- (rev_involutive dir), E; reflexivity). subst. left. split; [now left|reflexivity].
  - assert (D : dir = rev r ++ [c]) by (rewrite <- (rev_involutive dir), E; reflexivity).
    destruct (Ascii.eqb_spec c "/") as [->|N].
    + left. split; [right; now exists (rev r)|reflexivity].
    + right. split; [|reflexivity]. intros [H|[d H]]; [subst; destruct (rev r); discriminate|]. rewrite H in D. apply app_inj_tail in D. destruct D as [_ D]. now apply N.
Qed.
(** A directory whose name does not end in a slash. *)
Lemma join_below b c name : Ascii.eqb c "/" = false -> py_join (b ++ [c]) name = (b ++ [c]) ++ lit "/" ++ name.
Proof. intros N. unfold py_join. rewrite rev_app_distr. cbn [List.rev app]. now rewrite N. Qed.

Lemma eqb_prefix t a b : str_eqb (t ++ a) (t ++ b) = str_eqb a b.
Proof.
  destruct (Pf_Package.eqb_spec (t ++ a) (t ++ b)) as [E|M]; destruct (Pf_Package.eqb_spec a b) as [F|N]; try reflexivity.
  - now apply app_inv_head in E.
  - subst. congruence.
Qed.
Lemma after_app t a b : after_prefix (t ++ a) (t ++ b) = after_prefix a b.
Proof. induction t as [|c t IH]; [reflexivity|]. cbn [app after_prefix]. now rewrite Ascii.eqb_refl. Qed.

(** The file system, by the part of the paths after the temporary directory. *)
Definition at_ (t : str) (fs : file_system) : file_system := map (fun '(p, c) => (t ++ p, c)) fs.
Lemma write_at t p c fs : write_file (t ++ p) c (at_ t fs) = at_ t (write_file p c fs).
Proof.
  unfold write_file. induction fs as [|[q d] fs IH]; [reflexivity|]. cbn [at_ map dict_set]. rewrite eqb_prefix. destruct (str_eqb p q); [reflexivity|].
  cbn [map]. f_equal. exact IH.
Qed.
Lemma read_at t p fs : read_file (t ++ p) (at_ t fs) = read_file p fs.
Proof.
  unfold read_file. induction fs as [|[q d] fs IH]; [reflexivity|]. cbn [at_ map dict_get]. rewrite eqb_prefix. destruct (str_eqb p q); [reflexivity|]. exact IH.
Qed.
Lemma below_at t dir fs : below (t ++ dir) (at_ t fs) = below dir fs.
Proof.
  unfold below. rewrite <- app_assoc. induction fs as [|[q d] fs IH]; [reflexivity|]. cbn [at_ map flat_map]. rewrite after_app. f_equal. exact IH.
Qed.

(** ** The script in a row *)
Section script.
  Context `{Programs}.
  Context (temp code : str) (source : str -> str).

  Definition elf : str := source (py_join code (lit "target/release/ripcalc")).
  Definition copied : str := py_join temp (lit "data/usr/bin/ripcalc").
  Definition doc_files (count date : str) : list (str * str) :=
    [(lit "usr/share/doc/ripcalc/changelog.gz", gzip_bytes (@fake_changelog (answers count date) (rstrip_newlines count)));
     (lit "usr/share/doc/ripcalc/copyright", make_copyright)].
  Definition all_files (count date stripped : str) : list (str * str) := (lit "usr/bin/ripcalc", stripped) :: doc_files count date.
  Definition cmd (i : nat) (name : str) : list str := nth i (commands copied name) [].
  Definition name_of (count arch : str) : str := lit "ripcalc_" ++ rstrip_newlines count ++ lit "_" ++ arch ++ lit ".deb".
  Definition the_control (count date stripped arch deps : str) : list (str * str) :=
    let files := all_files count date stripped in
    [(lit "control", control_file (rstrip_newlines count) arch deps (size files / 1024));
     (lit "md5sums", md5sums_file (map (fun x => (fst x, md5_bytes (snd x))) files))].

  Definition row : packing unit :=
    pbind (run_cmd (cmd 0 []) git_cmd) (fun count =>
    pbind (run_cmd (cmd 1 []) date_cmd) (fun date =>
    pbind (plift (get_elf_machine elf)) (fun arch =>
    pbind (run_for_file (cmd 2 []) (strip_cmd elf)) (fun stripped =>
    pbind (run_for_file (cmd 3 []) (tar_xz (listing (all_files count date stripped)))) (fun da =>
    pbind (run_cmd (cmd 4 []) (readelf_cmd stripped)) (fun out =>
    pbind (plift (deb_depends out)) (fun deps =>
    pbind (run_for_file (cmd 5 []) (tar_gz (listing (the_control count date stripped arch deps)))) (fun ca =>
    pbind (run_for_file (cmd 6 (name_of count arch)) (ar_cmd (members ca da))) (fun deb =>
    ([Placed (py_join code (name_of count arch)) deb; Printed (name_of count arch ++ [byte 10])], ROk tt)))))))))).

  Lemma pbind_ext {T U} (x : packing T) (f g : T -> packing U) : (forall a, f a = g a) -> pbind x f = pbind x g.
  Proof. intros E. destruct x as [es [a|e]]; [|reflexivity]. cbn [pbind]. now rewrite E. Qed.
  Lemma pbind_assoc {T U V} (x : packing T) (f : T -> packing U) (g : U -> packing V) : pbind (pbind x f) g = pbind x (fun a => pbind (f a) g).
  Proof.
    destruct x as [es [a|e]]; [|reflexivity]. cbn [pbind]. destruct (f a) as [es' [b|e']]; [|reflexivity]. cbn [pbind].
    destruct (g b) as [es'' r]. now rewrite app_assoc.
  Qed.
  Lemma pbind_ret {T U} (a : T) (f : T -> packing U) : pbind (plift (ROk a)) f = f a.
  Proof. cbn [pbind plift]. now destruct (f a). Qed.
  Lemma plift_rbind {T U V} (r : result T py_error) (f : T -> result U py_error) (g : U -> packing V) :
    pbind (plift (rbind r f)) g = pbind (plift r) (fun a => pbind (plift (f a)) g).
  Proof. destruct r as [a|e]; [|reflexivity]. now rewrite pbind_ret. Qed.

  Lemma script_row : package_script temp code source = row.
  Proof.
    unfold package_script, row. apply pbind_ext. intros count. cbv zeta. apply pbind_ext. intros date. fold elf.
    apply pbind_ext. intros arch.
    set (t := slashed temp).
    assert (TD : py_join temp (lit "data") = t ++ lit "data") by apply py_join_slashed.
    assert (TC : py_join temp (lit "control") = t ++ lit "control") by apply py_join_slashed.
    assert (JD : forall n, py_join (t ++ lit "data") n = t ++ lit "data/" ++ n).
    { intros n. change (lit "data") with (lit "dat" ++ ["a"%char]). rewrite app_assoc, join_below by reflexivity. now rewrite <- !app_assoc. }
    assert (JC : forall n, py_join (t ++ lit "control") n = t ++ lit "control/" ++ n).
    { intros n. change (lit "control") with (lit "contro" ++ ["l"%char]). rewrite app_assoc, join_below by reflexivity. now rewrite <- !app_assoc. }
    change (lit "usr/share/doc/" ++ package_name) with (lit "usr/share/doc/ripcalc").
    change [(lit "usr/share/doc/ripcalc" ++ lit "/changelog.gz", _); (lit "usr/share/doc/ripcalc" ++ lit "/copyright", _)] with (doc_files count date).
    rewrite (py_join_slashed temp (lit "debian-binary")). fold t.
    change (write_file (t ++ lit "debian-binary") (lit "2.0" ++ ["010"%char]) []) with (at_ t [(lit "debian-binary", lit "2.0" ++ [byte 10])]).
    unfold collect_data. rewrite TD. unfold FILES. cbn [map place_files]. fold elf. rewrite JD, write_at. unfold strip_target at 1.
    change (existsb (str_eqb target_file) STRIP_TARGET_FILES) with true. cbv iota. rewrite read_at.
    rewrite !pbind_assoc.
    assert (CP : t ++ lit "data/" ++ target_file = copied) by (unfold copied; rewrite py_join_slashed; reflexivity).
    rewrite CP. change [lit "strip"; copied] with (cmd 2 []).
    match goal with |- context [strip_cmd ?x] => change (strip_cmd x) with (strip_cmd elf) end.
    apply pbind_ext. intros stripped. rewrite <- CP, !pbind_ret. rewrite write_at.
    assert (S1 : forall n fs, existsb (str_eqb n) STRIP_TARGET_FILES = false -> forall p, strip_target n p fs = plift (ROk fs)) by (intros n fs E p; unfold strip_target; now rewrite E).
    rewrite !pbind_assoc. unfold doc_files at 1. cbn [place_files]. rewrite !JD.
    rewrite S1 by reflexivity. rewrite !pbind_assoc, pbind_ret. rewrite S1 by reflexivity. rewrite !pbind_assoc, !pbind_ret, !write_at.
    rewrite below_at.
    match goal with |- context [listing (below (lit "data") ?x)] => change (below (lit "data") x) with (all_files count date stripped); set (fs1 := x) end.
    rewrite pbind_assoc. change [lit "tar"; lit "-cJ"; _; _; _; _; _] with (cmd 3 []).
    apply pbind_ext. intros da. rewrite pbind_ret.
    rewrite (py_join_slashed temp (lit "data.tar.xz")). fold t. rewrite write_at.
    set (fs2 := write_file _ da fs1).
    cbv beta iota. unfold collect_control. cbn [map]. cbv beta iota. unfold FILES. cbn [map]. rewrite JD, read_at.
    change (read_file (lit "data/" ++ target_file) fs2) with stripped.
    destruct (@checksums (answers [] []) [(target_file, stripped)] (doc_files count date)) as [sums total] eqn:EC.
    assert (ES : sums = map (fun x => (fst x, md5_bytes (snd x))) (all_files count date stripped) /\ total = size (all_files count date stripped)).
    { revert EC. unfold checksums. cbn [fold_left doc_files]. rewrite feed_all by lia. cbn [app]. intros EC. split; [apply (f_equal fst) in EC; cbn [fst] in EC; rewrite <- EC; reflexivity|].
      apply (f_equal snd) in EC. cbn [snd] in EC. rewrite <- EC. clear. unfold size, all_files, doc_files. generalize make_copyright. intros mc'. cbn [flat_map snd]. rewrite !app_length. cbn [List.length]. lia. }
    destruct ES as [-> ->]. rewrite TC.
    unfold BIN_DEP_TARGET_FILES. cbn [needed_versions]. rewrite !JD, read_at.
    change (read_file (lit "data/" ++ target_file) fs2) with stripped. rewrite CP.
    change [lit "readelf"; lit "-V"; copied] with (cmd 4 []). rewrite !pbind_assoc. apply pbind_ext. intros out.
    unfold deb_depends. rewrite !plift_rbind, !pbind_assoc. apply pbind_ext. intros lv. rewrite pbind_ret, plift_rbind, !pbind_assoc. apply pbind_ext. intros dd. rewrite pbind_ret.
    rewrite !JC, !write_at, below_at.
    match goal with |- context [listing (below (lit "control") ?x)] => change (below (lit "control") x) with (the_control count date stripped arch (join (lit ", ") (py_sorted str_compare (dd ++ [])))); set (fs3 := x) end.
    rewrite pbind_assoc. change [lit "tar"; lit "-cz"; _; _; _; _; _] with (cmd 5 []). apply pbind_ext. intros ca. rewrite pbind_ret.
    rewrite (py_join_slashed temp (lit "control.tar.gz")). fold t. rewrite write_at. cbn [map]. rewrite !(py_join_slashed temp). fold t. rewrite !read_at.
    set (fs4 := write_file _ ca fs3).
    match goal with |- context [ar_cmd ?x] => change x with (members ca da) end.
    change (package_name ++ lit "_" ++ rstrip_newlines count ++ lit "_" ++ arch ++ lit ".deb") with (name_of count arch).
    change ([lit "ar"; lit "rcD"; name_of count arch] ++ _) with (cmd 6 (name_of count arch)).
    apply pbind_ext. intros deb. rewrite write_at, read_at.
    assert (RW : forall p c fs, read_file p (write_file p c fs) = c).
    { intros p c fs. unfold read_file, write_file. rewrite get_set. now destruct (Pf_Package.eqb_spec p p). }
    rewrite RW. reflexivity.
  Qed.
End script.

(** ** The theorems *)
Lemma run_says args a out : run_cmd args a = ([Ran args], ROk out) <-> says a out.
Proof.
  unfold run_cmd, says. split.
  - destruct a as [o|]; [|discriminate]. destruct (is_utf8 o) eqn:E; [|discriminate]. intros H. assert (o = out) by congruence. subst. split; [reflexivity|now apply utf8_unicode].
  - intros [-> U]. apply utf8_unicode in U. now rewrite U.
Qed.
Lemma run_cases args a : (exists out, says a out /\ run_cmd args a = ([Ran args], ROk out)) \/ useless a /\ run_cmd args a = ([Ran args], RErr ValueError).
Proof.
  destruct (run_cmd args a) as [es r] eqn:E. assert (es = [Ran args]) by (unfold run_cmd in E; congruence). subst.
  destruct r as [out|e].
  - left. exists out. split; [now apply (run_says args)|reflexivity].
  - right. split.
    + intros out S. apply (run_says args) in S. congruence.
    + unfold run_cmd in E. destruct a as [o|]; [destruct (is_utf8 o)|]; congruence.
Qed.
Lemma says_unique a o o' : says a o -> says a o' -> o = o'.
Proof. intros [-> _] [E _]. congruence. Qed.

Definition add {T : Type} (es : list effect) (x : packing T) : packing T := (es ++ fst x, snd x).
Lemma step_ok {T U} es (a : T) (f : T -> packing U) : pbind (es, ROk a) f = add es (f a).
Proof. cbn [pbind]. unfold add. now destruct (f a). Qed.
Lemma step_err {T U} es e (f : T -> packing U) : pbind (es, RErr e) f = (es, RErr e).
Proof. reflexivity. Qed.

Definition the_package (P : Programs) (count date stripped arch deps : str) : package :=
  {| deb_name := name_of count arch;
     Package.control := control_file (rstrip_newlines count) arch deps (size (all_files count date stripped) / 1024);
     md5sums := md5sums_file (map (fun x => (fst x, md5_bytes (snd x))) (all_files count date stripped));
     data := all_files count date stripped |}.

Lemma told_package (P : Programs) count date stripped versions f :
  @debianize (told count date stripped versions) f =
  rbind (get_elf_machine f) (fun arch => rbind (deb_depends versions) (fun deps => ROk (the_package P count date stripped arch deps))).
Proof. rewrite debianize_eq. reflexivity. Qed.

(** Everything that can happen, in a row. *)
Inductive fate (P : Programs) (temp code : str) (source : str -> str) : packing unit -> Prop :=
| fate_git : useless git_cmd -> fate P temp code source (map Ran (firstn 1 (commands (copied temp) [])), RErr ValueError)
| fate_date : useless date_cmd -> fate P temp code source (map Ran (firstn 2 (commands (copied temp) [])), RErr ValueError)
| fate_machine e : get_elf_machine (elf code source) = RErr e -> fate P temp code source (map Ran (firstn 2 (commands (copied temp) [])), RErr e)
| fate_strip : strip_cmd (elf code source) = None -> fate P temp code source (map Ran (firstn 3 (commands (copied temp) [])), RErr ValueError)
| fate_tar files : tar_xz files = None -> fate P temp code source (map Ran (firstn 4 (commands (copied temp) [])), RErr ValueError)
| fate_readelf stripped : strip_cmd (elf code source) = Some stripped -> useless (readelf_cmd stripped) -> fate P temp code source (map Ran (firstn 5 (commands (copied temp) [])), RErr ValueError)
| fate_deps stripped out e : strip_cmd (elf code source) = Some stripped -> says (readelf_cmd stripped) out -> deb_depends out = RErr e ->
    fate P temp code source (map Ran (firstn 5 (commands (copied temp) [])), RErr e)
| fate_gz files : tar_gz files = None -> fate P temp code source (map Ran (firstn 6 (commands (copied temp) [])), RErr ValueError)
| fate_ar c d name : ar_cmd (members c d) = None -> fate P temp code source (map Ran (firstn 7 (commands (copied temp) name)), RErr ValueError)
| fate_well count date stripped versions arch deps da ca deb :
    says git_cmd count -> says date_cmd date -> strip_cmd (elf code source) = Some stripped -> says (readelf_cmd stripped) versions ->
    get_elf_machine (elf code source) = ROk arch -> deb_depends versions = ROk deps ->
    tar_xz (listing (data (the_package P count date stripped arch deps))) = Some da ->
    tar_gz (listing (control_files (the_package P count date stripped arch deps))) = Some ca ->
    ar_cmd (members ca da) = Some deb ->
    fate P temp code source (map Ran (commands (copied temp) (name_of count arch)) ++ [Placed (py_join code (name_of count arch)) deb; Printed (name_of count arch ++ [byte 10])], ROk tt).

Lemma script_fate P temp code source : fate P temp code source (package_script temp code source).
Proof.
  rewrite script_row. unfold row.
  destruct (run_cases (cmd temp 0 []) git_cmd) as [(count & G & ->)|(G & ->)]; [rewrite step_ok; cbv beta|rewrite step_err; now apply fate_git].
  destruct (run_cases (cmd temp 1 []) date_cmd) as [(date & D & ->)|(D & ->)]; [rewrite step_ok; cbv beta|rewrite step_err; now apply fate_date].
  destruct (get_elf_machine (elf code source)) as [arch|e] eqn:A; unfold plift at 1; [rewrite step_ok; cbv beta|rewrite step_err; now apply fate_machine].
  unfold run_for_file at 1. destruct (strip_cmd (elf code source)) as [stripped|] eqn:S; [rewrite step_ok; cbv beta|rewrite step_err; now apply fate_strip].
  unfold run_for_file at 1. destruct (tar_xz _) as [da|] eqn:X; [rewrite step_ok; cbv beta|rewrite step_err; now apply (fate_tar _ _ _ _ _ X)].
  destruct (run_cases (cmd temp 4 []) (readelf_cmd stripped)) as [(out & R & ->)|(R & ->)]; [rewrite step_ok; cbv beta|rewrite step_err; now apply (fate_readelf _ _ _ _ stripped)].
  destruct (deb_depends out) as [deps|e] eqn:E; unfold plift; [rewrite step_ok; cbv beta|rewrite step_err; now apply (fate_deps _ _ _ _ stripped out)].
  unfold run_for_file at 1. destruct (tar_gz _) as [ca|] eqn:Z; [rewrite step_ok; cbv beta|rewrite step_err; now apply (fate_gz _ _ _ _ _ Z)].
  unfold run_for_file at 1. destruct (ar_cmd _) as [deb|] eqn:Ar; [rewrite step_ok; cbv beta|rewrite step_err; now apply (fate_ar _ _ _ _ _ _ (name_of count arch) Ar)].
  exact (fate_well P temp code source count date stripped out arch deps da ca deb G D S R A E X Z Ar).
Qed.

Lemma c105_package : forall (P : Programs) (temp code binary file : str) (source : str -> str) (effects : list effect),
  path_in code (lit "target/release/ripcalc") binary -> path_in temp (lit "data/usr/bin/ripcalc") file ->
  (package_script temp code source = (effects, ROk tt) <->
   exists count date stripped versions p data_archive control_archive deb path,
     says git_cmd count /\ says date_cmd date /\ strip_cmd (source binary) = Some stripped /\ says (readelf_cmd stripped) versions /\
     @debianize (told count date stripped versions) (source binary) = ROk p /\
     tar_xz (listing (data p)) = Some data_archive /\ tar_gz (listing (control_files p)) = Some control_archive /\
     ar_cmd (members control_archive data_archive) = Some deb /\ path_in code (deb_name p) path /\
     effects = map Ran (commands file (deb_name p)) ++ [Placed path deb; Printed (deb_name p ++ [byte 10])]).
Proof.
  intros P temp code binary file source effects B F. apply path_in_join in B. apply path_in_join in F. subst binary file. split.
  - intros E. pose proof (script_fate P temp code source) as K. rewrite E in K. inversion K; subst.
    exists count, date, stripped, versions, (the_package P count date stripped arch deps), da, ca, deb, (py_join code (name_of count arch)).
    repeat (split; [assumption|]). split; [rewrite told_package; fold (elf code source); now rewrite H4, H5|].
    repeat (split; [assumption|]). split; [apply join_path_in|reflexivity].
  - intros (count & date & stripped & versions & p & da & ca & deb & path & G & D & S & R & K & X & Z & Ar & I & ->).
    apply path_in_join in I. subst path. rewrite told_package in K. fold (elf code source) in K, S.
    destruct (get_elf_machine (elf code source)) as [arch|] eqn:A; [|discriminate]. cbn [rbind] in K. destruct (deb_depends versions) as [deps|] eqn:Dp; [|discriminate]. cbn [rbind] in K.
    assert (EQ : p = the_package P count date stripped arch deps) by congruence. rewrite EQ in *. clear K EQ.
    rewrite script_row. unfold row. rewrite (proj2 (run_says _ _ _) G), step_ok, (proj2 (run_says _ _ _) D), step_ok, A. unfold plift at 1. rewrite step_ok, S. unfold run_for_file at 1. rewrite step_ok.
    change (all_files count date stripped) with (data (the_package P count date stripped arch deps)) at 1. rewrite X. unfold run_for_file at 1. rewrite step_ok.
    rewrite (proj2 (run_says _ _ _) R), step_ok, Dp. unfold plift. rewrite step_ok.
    change (the_control count date stripped arch deps) with (control_files (the_package P count date stripped arch deps)). rewrite Z. unfold run_for_file at 1. rewrite step_ok, Ar. unfold run_for_file. rewrite step_ok. reflexivity.
Qed.

Lemma c105_errors : forall (P : Programs) (temp code binary file : str) (source : str -> str) (effects : list effect) (e : py_error),
  path_in code (lit "target/release/ripcalc") binary -> path_in temp (lit "data/usr/bin/ripcalc") file ->
  package_script temp code source = (effects, RErr e) ->
  (exists name, effects = map Ran (firstn (List.length effects) (commands file name))) /\
  match List.length effects with
  | 1%nat => useless git_cmd /\ e = ValueError
  | 2%nat => useless date_cmd /\ e = ValueError \/ get_elf_machine (source binary) = RErr e
  | 3%nat => strip_cmd (source binary) = None /\ e = ValueError
  | 4%nat => (exists files, tar_xz files = None) /\ e = ValueError
  | 5%nat => exists stripped, strip_cmd (source binary) = Some stripped /\
       (useless (readelf_cmd stripped) /\ e = ValueError \/ exists versions, says (readelf_cmd stripped) versions /\ deb_depends versions = RErr e)
  | 6%nat => (exists files, tar_gz files = None) /\ e = ValueError
  | 7%nat => (exists c d, ar_cmd (members c d) = None) /\ e = ValueError
  | _ => False
  end.
Proof.
  intros P temp code binary file source effects e B F. apply path_in_join in B. apply path_in_join in F. subst binary file.
  fold (elf code source) (copied temp). intros E. pose proof (script_fate P temp code source) as K. rewrite E in K. clear E.
  inversion K; subst; cbn [List.length map firstn commands];
    (split; [first [exists []; reflexivity | exists name; reflexivity] |]); eauto 6.
Qed.

Definition alike {T : Type} (x y : packing T) : Prop :=
  snd x = snd y /\ filter lasting (fst x) = filter lasting (fst y) /\ List.length (fst x) = List.length (fst y).
Lemma alike_bind {T U} (x y : packing T) (f g : T -> packing U) : alike x y -> (forall a, alike (f a) (g a)) -> alike (pbind x f) (pbind y g).
Proof.
  destruct x as [es r]; destruct y as [es' r']. intros (E & F & L) K. cbn [fst snd] in *. subst r'. destruct r as [a|e]; [|now split].
  specialize (K a). cbn [pbind]. destruct (f a) as [fs s]; destruct (g a) as [fs' s']. destruct K as (E & G & M). cbn [fst snd] in *. subst.
  split; [reflexivity|]. cbn [fst]. rewrite !filter_app, !app_length. split; [congruence|lia].
Qed.
Lemma alike_run args args' a : alike (run_cmd args a) (run_cmd args' a).
Proof. repeat split. Qed.
Lemma alike_file args args' a : alike (run_for_file args a) (run_for_file args' a).
Proof. repeat split. Qed.
Lemma alike_refl {T} (x : packing T) : alike x x.
Proof. repeat split. Qed.

Lemma c105_anywhere : forall (P : Programs) (temp temp' code : str) (source : str -> str),
  let '(es, r) := package_script temp code source in
  let '(es', r') := package_script temp' code source in
  r = r' /\ filter lasting es = filter lasting es' /\ List.length es = List.length es'.
Proof.
  intros P temp temp' code source. assert (A : alike (package_script temp code source) (package_script temp' code source)).
  { rewrite !script_row. unfold row.
    repeat first [apply alike_refl | apply alike_bind; [first [apply alike_run | apply alike_file | apply alike_refl]|intros ?]]. }
  destruct (package_script temp code source) as [es r]. destruct (package_script temp' code source) as [es' r']. exact A.
Qed.
