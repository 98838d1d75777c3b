(* Dict.v -- Python dictionaries with str keys: insertion-ordered association lists. *)
From Verif Require Export Exn.
From Coq Require Export Permutation.

Definition dict (A : Type) := list (str * A).
Definition keys {A} (d : dict A) : list str := map fst d.

(* d.get(k) *)
Fixpoint dget {A} (k : str) (d : dict A) : option A :=
  match d with
  | [] => None
  | (k', v) :: r => if str_eqb k k' then Some v else dget k r
  end.

(* d[k] = v: an existing key keeps its place *)
Fixpoint dset {A} (k : str) (v : A) (d : dict A) : dict A :=
  match d with
  | [] => [(k, v)]
  | (k', w) :: r => if str_eqb k k' then (k', v) :: r else (k', w) :: dset k v r
  end.

(* d.update(e) *)
Definition dupd {A} (d e : dict A) : dict A := fold_left (fun acc kv => dset (fst kv) (snd kv) acc) e d.

(* del d[k] / d.pop(k) *)
Fixpoint ddel {A} (k : str) (d : dict A) : dict A :=
  match d with
  | [] => []
  | (k', w) :: r => if str_eqb k k' then r else (k', w) :: ddel k r
  end.

(* k in d *)
Definition dmem {A} (k : str) (d : dict A) : bool := match dget k d with Some _ => true | None => false end.

Section Facts.
  Context {A : Type}.
  Implicit Types (d e : dict A) (k q : str) (v : A).

  Lemma dget_in k v d : dget k d = Some v -> In (k, v) d.
  Proof.
    induction d as [|[a w] d IH]; cbn; [discriminate|].
    destruct (str_eqb_spec k a) as [->|Hn]; [intros [= ->]; auto|auto].
  Qed.

  Lemma dget_none k d : dget k d = None <-> ~ In k (keys d).
  Proof.
    induction d as [|[a w] d IH]; cbn; [tauto|].
    destruct (str_eqb_spec k a) as [->|Hn]; [split; [discriminate|intuition]|].
    rewrite IH. intuition congruence.
  Qed.

  Lemma in_dget k v d : NoDup (keys d) -> In (k, v) d -> dget k d = Some v.
  Proof.
    induction d as [|[a w] d IH]; cbn; [tauto|]. intros H; inversion H as [|x y Hx Hy]; subst.
    intros [E|E]; [injection E as -> ->; rewrite str_eqb_refl; reflexivity|].
    destruct (str_eqb_spec k a) as [->|Hn]; [|auto].
    exfalso; apply Hx. apply (in_map fst) in E. exact E.
  Qed.

  Lemma dget_dset k q v d : dget q (dset k v d) = if str_eqb q k then Some v else dget q d.
  Proof.
    induction d as [|[a w] d IH]; cbn; [reflexivity|].
    destruct (str_eqb_spec k a) as [->|Hn]; cbn.
    - destruct (str_eqb_spec q a); reflexivity.
    - rewrite IH. destruct (str_eqb_spec q a) as [->|H1]; [|reflexivity].
      destruct (str_eqb_spec a k); congruence.
  Qed.

  Lemma keys_dset k v d : keys (dset k v d) = if mem_str k (keys d) then keys d else keys d ++ [k].
  Proof.
    unfold keys. induction d as [|[a w] d IH]; cbn; [reflexivity|].
    destruct (str_eqb_spec k a) as [->|Hn]; cbn; [reflexivity|]. rewrite IH. destruct (mem_str k (map fst d)); reflexivity.
  Qed.

  Lemma dset_nodup k v d : NoDup (keys d) -> NoDup (keys (dset k v d)).
  Proof.
    intros H. rewrite keys_dset. destruct (mem_str k (keys d)) eqn:E; [exact H|].
    apply (Permutation_NoDup (l := k :: keys d)); [apply Permutation_cons_append|]. constructor; [|exact H].
    intros Hin. apply mem_str_In in Hin. congruence.
  Qed.

  Lemma dset_new k v d : ~ In k (keys d) -> dset k v d = d ++ [(k, v)].
  Proof.
    induction d as [|[a w] d IH]; cbn; [reflexivity|]. intros H.
    destruct (str_eqb_spec k a) as [->|Hn]; [intuition|]. rewrite IH by tauto. reflexivity.
  Qed.

  Lemma dupd_nodup d e : NoDup (keys d) -> NoDup (keys (dupd d e)).
  Proof. unfold dupd. revert d; induction e as [|[a w] e IH]; intros d H; cbn; [exact H|]. apply IH, dset_nodup, H. Qed.

  Lemma dget_app k d e : dget k (d ++ e) = match dget k d with Some v => Some v | None => dget k e end.
  Proof. induction d as [|[a w] d IH]; cbn; [reflexivity|]. destruct (str_eqb k a); auto. Qed.

  (* update: the last binding of e wins, then d *)
  Lemma dget_dupd_rev k d e : dget k (dupd d e) = match dget k (rev e) with Some v => Some v | None => dget k d end.
  Proof.
    unfold dupd. revert d; induction e as [|[a w] e IH]; intros d; cbn [fold_left rev]; [reflexivity|].
    rewrite IH, dget_app, dget_dset. cbn [fst snd dget]. destruct (dget k (rev e)); [reflexivity|].
    destruct (str_eqb k a); reflexivity.
  Qed.

  Lemma dget_perm k d e : NoDup (keys d) -> Permutation d e -> dget k d = dget k e.
  Proof.
    intros Hn Hp. assert (Hn' : NoDup (keys e)) by (eapply Permutation_NoDup; [apply Permutation_map; exact Hp|exact Hn]).
    destruct (dget k d) as [v|] eqn:E.
    - symmetry. apply in_dget; [exact Hn'|]. eapply Permutation_in; [exact Hp|]. apply dget_in, E.
    - symmetry. apply dget_none. rewrite dget_none in E. intros H; apply E.
      eapply Permutation_in; [|exact H]. apply Permutation_map, Permutation_sym, Hp.
  Qed.

  Lemma dget_dupd k d e : NoDup (keys e) ->
    dget k (dupd d e) = match dget k e with Some v => Some v | None => dget k d end.
  Proof.
    intros H. rewrite dget_dupd_rev.
    rewrite (dget_perm k (rev e) e); [reflexivity| |apply Permutation_sym, Permutation_rev].
    unfold keys in *. rewrite map_rev. eapply Permutation_NoDup; [apply Permutation_rev|exact H].
  Qed.

  (* update with new keys appends *)
  Lemma dupd_new d e : NoDup (keys e) -> (forall k, In k (keys e) -> ~ In k (keys d)) -> dupd d e = d ++ e.
  Proof.
    unfold dupd. revert d; induction e as [|[a w] e IH]; intros d Hn Hd; cbn [fold_left fst snd]; [symmetry; apply app_nil_r|].
    inversion Hn as [|x y Hx Hy]; subst. rewrite dset_new by (apply Hd; left; reflexivity).
    rewrite IH; [rewrite <- app_assoc; reflexivity|exact Hy|].
    intros k Hk. unfold keys. rewrite map_app, in_app_iff. intros [H|[H|[]]].
    - exact (Hd k (or_intror Hk) H).
    - cbn in H. subst. exact (Hx Hk).
  Qed.

  Lemma dupd_nil e : NoDup (keys e) -> dupd [] e = e.
  Proof. intros H. rewrite dupd_new; auto. Qed.

  Lemma dmem_In k d : dmem k d = true <-> In k (keys d).
  Proof.
    unfold dmem. destruct (dget k d) eqn:E.
    - split; [intros _|reflexivity]. apply dget_in in E. apply (in_map fst) in E. exact E.
    - rewrite dget_none in E. split; [discriminate|contradiction].
  Qed.

  Lemma dget_ddel k q d : NoDup (keys d) -> dget q (ddel k d) = if str_eqb q k then None else dget q d.
  Proof.
    induction d as [|[a w] d IH]; intros Hn; cbn; [destruct (str_eqb q k); reflexivity|].
    inversion Hn as [|x y Hx Hy]; subst.
    destruct (str_eqb_spec k a) as [->|H1].
    - destruct (str_eqb_spec q a) as [->|H2]; [apply dget_none; exact Hx|reflexivity].
    - cbn. rewrite IH by exact Hy. destruct (str_eqb_spec q a) as [->|H2]; [|reflexivity].
      destruct (str_eqb_spec a k); congruence.
  Qed.

  Lemma keys_ddel_incl k d : incl (keys (ddel k d)) (keys d).
  Proof.
    induction d as [|[a w] d IH]; cbn; [apply incl_refl|]. destruct (str_eqb k a); [apply incl_tl, incl_refl|].
    cbn. apply incl_cons; [left; reflexivity|apply incl_tl, IH].
  Qed.

  Lemma ddel_nodup k d : NoDup (keys d) -> NoDup (keys (ddel k d)).
  Proof.
    induction d as [|[a w] d IH]; cbn; [auto|]. intros H; inversion H as [|x y Hx Hy]; subst.
    destruct (str_eqb k a); [exact Hy|]. cbn. constructor; [|auto]. intros Hin. apply Hx. apply (keys_ddel_incl k d), Hin.
  Qed.
End Facts.
