(** * Pf_Hash: proofs for P_Hash *)
From Verif Require Import RustBase Addr Net Parse Console Hashing SpecOrder Derived SpecHash Bits Laws Family NetFacts Pf_Net Pf_Derived.

(** One law for both parts: what follows is kept apart as well. *)
Definition apart {T W : Type} (feed : T -> list W) : Prop := forall a b r r', feed a ++ r = feed b ++ r' -> a = b /\ r = r'.
Lemma apart_tells {T W} (feed : T -> list W) : apart feed -> tells_apart feed.
Proof.
  intros H. split.
  - intros a b. split; [|now intros ->]. intros E. apply (H a b [] []). now rewrite E.
  - intros a b r E. destruct (H a b [] r) as [_ K]; [now rewrite app_nil_r|]. now symmetry.
Qed.
Lemma apart_list {T W} (feed : T -> list W) : apart feed -> forall (l l' : list T) (r r' : list W), List.length l = List.length l' ->
  flat_map feed l ++ r = flat_map feed l' ++ r' -> l = l' /\ r = r'.
Proof.
  intros H. induction l as [|x l IH]; intros [|y l'] r r' E; try discriminate; cbn [flat_map app]; [auto|]. rewrite <- !app_assoc. intros K.
  apply H in K. destruct K as [<- K]. apply IH in K; [|now injection E]. destruct K as [<- <-]. auto.
Qed.
Lemma apart_vec {T} (feed : T -> list hash_write) : apart feed -> apart (hash_vec feed).
Proof.
  intros H l l' r r' E. unfold hash_vec in E. cbn [app] in E. injection E as L E. apply Nnat.Nat2N.inj in L. now apply (apart_list feed H).
Qed.
Lemma apart_pair {T T'} (feed : T -> list hash_write) (feed' : T' -> list hash_write) : apart feed -> apart feed' -> apart (hash_pair feed feed').
Proof.
  intros H H' [a a'] [b b'] r r' E. unfold hash_pair in E. cbn [fst snd] in E. rewrite <- !app_assoc in E.
  apply H in E. destruct E as [<- E]. apply H' in E. destruct E as [<- <-]. auto.
Qed.
Lemma apart_opt : apart hash_opt.
Proof. intros [p|] [q|] r r' E; cbn in E; try discriminate; injection E; intros; subst; auto. Qed.
Lemma apart_v4 : apart hash_v4.
Proof. intros [a] [b] r r' E. cbn in E. injection E as <- <-. auto. Qed.
Lemma apart_v6 : apart hash_v6.
Proof. intros [a a'] [b b'] r r' E. cbn in E. injection E as <- <- <-. auto. Qed.
Lemma apart_net {A} (feed : A -> list hash_write) : apart feed -> apart (hash_net feed).
Proof.
  intros H [b m p] [b' m' p'] r r' E. unfold hash_net in E. cbn [base_addr subnet_mask cidr_prefix] in E. rewrite <- !app_assoc in E.
  apply H in E. destruct E as [<- E]. apply H in E. destruct E as [<- E]. apply apart_opt in E. destruct E as [<- <-]. auto.
Qed.
Lemma apart_color : apart hash_color.
Proof. intros c c' r r' E. cbn in E. injection E as E <-. destruct c, c'; try discriminate E; auto. Qed.
Lemma apart_parsed : apart hash_parsed.
Proof.
  intros [a|a] [b|b] r r' E; cbn [hash_parsed app] in E; try (injection E; discriminate); injection E as E.
  - assert (K : hash_v4 a ++ r = hash_v4 b ++ r') by (cbn; congruence). apply apart_v4 in K. destruct K as [<- <-]. auto.
  - assert (K : hash_v6 a ++ r = hash_v6 b ++ r') by (cbn; congruence). apply apart_v6 in K. destruct K as [<- <-]. auto.
Qed.
Lemma cons_tail {X} (x y : X) l l' : x :: l = y :: l' -> l = l'.
Proof. congruence. Qed.
Lemma apart_spec : apart hash_spec.
Proof.
  intros [a n|a n] [b m|b m] r r' E; cbn [hash_spec] in E; rewrite <- !app_comm_cons in E; try discriminate E; apply cons_tail in E; rewrite <- !app_assoc in E.
  - apply apart_v4 in E. destruct E as [<- E]. apply (apart_net _ apart_v4) in E. destruct E as [<- <-]. auto.
  - apply apart_v6 in E. destruct E as [<- E]. apply (apart_net _ apart_v6) in E. destruct E as [<- <-]. auto.
Qed.
Lemma apart_specs : apart hash_specs.
Proof.
  intros [| |l|l] [| |m|m] r r' E; cbn [hash_specs] in E; rewrite <- ?app_comm_cons in E; try discriminate E; apply cons_tail in E.
  1, 2: cbn [app] in E; auto.
  - apply (apart_vec _ (apart_pair _ _ apart_v4 (apart_net _ apart_v4))) in E. destruct E as [<- <-]. auto.
  - apply (apart_vec _ (apart_pair _ _ apart_v6 (apart_net _ apart_v6))) in E. destruct E as [<- <-]. auto.
Qed.
Lemma apart_subnet : apart hash_subnet.
Proof.
  intros [p|m|m] [q|n|n] r r' E; cbn [hash_subnet] in E; rewrite <- ?app_comm_cons in E; try discriminate E; apply cons_tail in E.
  - cbn [app] in E. injection E as <- <-. auto.
  - apply apart_v4 in E. destruct E as [<- <-]. auto.
  - apply apart_v6 in E. destruct E as [<- <-]. auto.
Qed.

Lemma c92_tells_apart :
  tells_apart hash_v4 /\ tells_apart hash_v6 /\ tells_apart (hash_net hash_v4) /\ tells_apart (hash_net hash_v6) /\
  tells_apart hash_parsed /\ tells_apart hash_spec /\ tells_apart hash_specs /\ tells_apart hash_subnet /\ tells_apart hash_color.
Proof.
  repeat apply conj; apply apart_tells; auto using apart_v4, apart_v6, apart_net, apart_parsed, apart_spec, apart_specs, apart_subnet, apart_color.
Qed.

Lemma c92_in_a_row : forall (T W : Type) (feed : T -> list W) (l l' : list T),
  tells_apart feed -> (forall x, feed x <> []) -> (flat_map feed l = flat_map feed l' <-> l = l').
Proof.
  intros T W feed l l' [A P] Hn. split; [|now intros ->]. revert l'. induction l as [|x l IH]; intros [|y l'] E; cbn [flat_map] in E.
  - reflexivity.
  - exfalso. symmetry in E. apply app_eq_nil in E. now apply (Hn y).
  - exfalso. apply app_eq_nil in E. now apply (Hn x).
  - assert (K : feed x = feed y).
    { destruct (app_eq_app _ _ _ _ E) as (r & [[K _]|[K _]]); pose proof (P _ _ _ K); subst r; rewrite app_nil_r in K; congruence. }
    rewrite K in E. apply app_inv_head in E. apply A in K. subst y. f_equal. now apply IH.
Qed.

Lemma write_eq_dec (w w' : hash_write) : {w = w'} + {w <> w'}.
Proof. decide equality; apply N.eq_dec. Defined.
Lemma c92_networks : forall (R : Rust) (F : family) (n n' : net F),
  wf_net n -> wf_net n' ->
  ((forall finish, hash_of (hash_net hash_addr) finish n = hash_of (hash_net hash_addr) finish n') <->
   forall a, valid a -> (member n a <-> member n' a)).
Proof.
  intros R F n n' W W'.
  assert (Ap : apart (@hash_addr F)) by (destruct F; [apply apart_v4|apply apart_v6]).
  rewrite <- (proj2 (c90_equal R F n n') W W'), (same_eq _ (order_net F)). split.
  - intros H. destruct (apart_net _ Ap n n' [] []) as [E _]; [|exact E]. f_equal.
    specialize (H (fun l => if list_eq_dec write_eq_dec l (hash_net hash_addr n) then 0 else 1)). unfold hash_of in H.
    destruct (list_eq_dec write_eq_dec (hash_net hash_addr n) (hash_net hash_addr n)) as [_|K]; [|now destruct K].
    destruct (list_eq_dec write_eq_dec (hash_net hash_addr n') (hash_net hash_addr n)) as [K|K]; [now symmetry|discriminate H].
  - now intros ->.
Qed.

Lemma c92_variants :
  (forall a, exists l, hash_parsed a = WriteIsize (parsed_place a) :: l) /\
  (forall s, exists l, hash_spec s = WriteIsize (spec_place s) :: l) /\
  (forall s, exists l, hash_specs s = WriteIsize (specs_place s) :: l) /\
  (forall s, exists l, hash_subnet s = WriteIsize (subnet_place s) :: l) /\
  (forall c, hash_color c = [WriteIsize (color_place c)]).
Proof.
  split; [|split; [|split; [|split]]].
  - intros [a|a]; eexists; reflexivity.
  - intros [a n|a n]; eexists; reflexivity.
  - intros [| |l|l]; eexists; reflexivity.
  - intros [p|m|m]; eexists; reflexivity.
  - intros []; reflexivity.
Qed.
