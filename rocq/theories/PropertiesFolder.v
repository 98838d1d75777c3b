(* PropertiesFolder.v -- the templates that are loaded from the files *)
From Coq Require Import Permutation.
From Verif Require Import Folder EnvFacts PropertiesEnv SpecJinja PropertiesJinja.
#[local] Notation length := List.length.

(* The file that is reached from an entry through these names. *)
Inductive file_at : entry -> list str -> res str -> Prop :=
| at_file t : file_at (TFile t) [] t
| at_dir d n e p t : In (n, e) d -> file_at e p t -> file_at (TDir d) (n :: p) t.
(* A directory has one entry for each name, and no empty names. *)
Inductive proper : entry -> Prop :=
| proper_file t : proper (TFile t)
| proper_dir d : NoDup (map fst d) -> (forall n e, In (n, e) d -> n <> [] /\ proper e) -> proper (TDir d).
(* The path of a file that is a template, and the name that it has in the templates. *)
Definition template_path (extension : str) (p : list str) : Prop := exists base, last p [] = base ++ extension.
Definition dotted (p : list str) : str := join (lit ".") p.

Fixpoint entry_ind' (P : entry -> Prop) (H1 : forall t, P (TFile t)) (H2 : forall d, Forall (fun ne => P (snd ne)) d -> P (TDir d)) (e : entry) : P e :=
  match e with
  | TFile t => H1 t
  | TDir d => H2 d ((fix go d := match d return Forall (fun ne => P (snd ne)) d with
                     | [] => Forall_nil _ | ne :: r => Forall_cons ne (entry_ind' P H1 H2 (snd ne)) (go r) end) d)
  end.

Section Load.
  Context (ext : str) (pre : str -> str).

  Lemma templates_dir name d : entry_templates ext pre name (TDir d) =
    let? t := load_entries ext pre d [] in Ok (match t with [] => None | _ => Some (EDict t) end).
  Proof.
    cbn [entry_templates]. match goal with |- rbind (?f d []) _ = _ => assert (E : forall l r, f l r = load_entries ext pre l r) end.
    { induction l as [|[n e] l IH]; intros r; [reflexivity|]. cbn [load_entries fst snd]. destruct (entry_templates ext pre n e) as [o|]; cbn [rbind]; [apply IH|reflexivity]. }
    rewrite E. reflexivity.
  Qed.

  (* the loop over the entries of a directory *)
  Lemma load_inv l : NoDup (map fst l) -> forall acc r, (forall n, In n (map fst l) -> ~ In n (keys acc)) -> load_entries ext pre l acc = Ok r ->
    exists new, r = acc ++ new /\
      (forall n v, In (n, v) new -> exists e, In (n, e) l /\ entry_templates ext pre n e = Ok (Some v)) /\
      (forall n e, In (n, e) l -> exists o, entry_templates ext pre n e = Ok o /\ forall v, o = Some v -> In (n, v) new).
  Proof.
    induction l as [|[n e] l IH]; intros Hn acc r Hd H; cbn [load_entries fst snd] in H.
    { exists []. rewrite app_nil_r. split; [congruence|]. split; [intros ? ? []|intros ? ? []]. }
    destruct (entry_templates ext pre n e) as [o|x] eqn:E; cbn [rbind] in H; [|discriminate H]. cbn [map fst] in Hn. inversion Hn as [|? ? Hn1 Hn2]; subst.
    assert (Hd' : forall k, In k (map fst l) -> ~ In k (keys (match o with Some v => dset n v acc | None => acc end))).
    { intros k Hk K. destruct o as [v|]; [|apply (Hd k); [right; exact Hk|exact K]]. rewrite dset_new in K by (apply Hd; left; reflexivity).
      unfold keys in K. rewrite map_app in K. apply in_app_iff in K as [K|[K|[]]]; [apply (Hd k); [right; exact Hk|exact K]|]. cbn [fst] in K. subst k. exact (Hn1 Hk). }
    destruct (IH Hn2 _ r Hd' H) as (new & Er & A & B).
    exists (match o with Some v => (n, v) :: new | None => new end). split; [|split].
    - destruct o as [v|]; [|exact Er]. rewrite dset_new in Er by (apply Hd; left; reflexivity). rewrite Er, <- app_assoc. reflexivity.
    - intros k v Hk. destruct o as [u|].
      + destruct Hk as [Hk|Hk]; [apply pair_equal_spec in Hk as [<- <-]; exists e; split; [left; reflexivity|exact E]|].
        destruct (A _ _ Hk) as (e' & Hi & He). exists e'. split; [right; exact Hi|exact He].
      + destruct (A _ _ Hk) as (e' & Hi & He). exists e'. split; [right; exact Hi|exact He].
    - intros k e' [Hk|Hk].
      + apply pair_equal_spec in Hk as [<- <-]. exists o. split; [exact E|]. intros v ->. left. reflexivity.
      + destruct (B _ _ Hk) as (o' & E' & K). exists o'. split; [exact E'|]. intros v Hv. specialize (K v Hv). destruct o; [right|]; exact K.
  Qed.

  Lemma in_paths p w d : In (p, w) (paths d) <-> exists n v q, In (n, v) d /\ p = n :: q /\ In (q, w) (val_paths v).
  Proof.
    induction d as [|[n v] d IH].
    - split; [intros []|]. intros (n & v & q & [] & _).
    - rewrite paths_cons', in_app_iff, IH. split.
      + intros [H|(n' & v' & q & H1 & H2 & H3)].
        * apply in_map_iff in H as ([q u] & E & H). apply pair_equal_spec in E as [<- <-]. exists n, v, q. split; [left; reflexivity|]. split; [reflexivity|exact H].
        * exists n', v', q. split; [right; exact H1|]. auto.
      + intros (n' & v' & q & [H1|H1] & -> & H3).
        * left. apply pair_equal_spec in H1 as [<- <-]. apply in_map_iff. exists (q, w). split; [reflexivity|exact H3].
        * right. exists n', v', q. auto.
  Qed.

  (* what an entry adds *)
  Definition adds (name : str) (e : entry) (o : option env_val) : Prop :=
    (forall p t, file_at e p t -> template_path ext (name :: p) -> exists s v, t = Ok s /\ o = Some v /\ In (p, EStr (pre s)) (val_paths v)) /\
    (forall v p w, o = Some v -> In (p, w) (val_paths v) -> exists s, file_at e p (Ok s) /\ template_path ext (name :: p) /\ w = EStr (pre s)).
  Lemma template_tail n (p : list str) : p <> [] -> (template_path ext (n :: p) <-> template_path ext p).
  Proof. intros H. unfold template_path. destruct p; [congruence|]. cbn [last]. reflexivity. Qed.
  Definition adds_all (l : list (str * entry)) (r : dict env_val) : Prop :=
    (forall p t, file_at (TDir l) p t -> template_path ext p -> exists s, t = Ok s /\ In (p, EStr (pre s)) (paths r)) /\
    (forall p w, In (p, w) (paths r) -> exists s, file_at (TDir l) p (Ok s) /\ template_path ext p /\ w = EStr (pre s)).
  Lemma load_adds l r : NoDup (map fst l) -> (forall n e o, In (n, e) l -> entry_templates ext pre n e = Ok o -> adds n e o) ->
    load_entries ext pre l [] = Ok r -> adds_all l r.
  Proof.
    intros Hn IH H. destruct (load_inv l Hn [] r) as (new & Er & A & B); [intros ? _ []|exact H|]. cbn [app] in Er. subst new. split.
    - intros p t Hp Ht. inversion Hp as [|d n e q t' Hi Hq]; subst. destruct (B _ _ Hi) as (o & E & K).
      destruct (IH _ _ _ Hi E) as [I1 _]. destruct (I1 _ _ Hq Ht) as (s & v & -> & -> & Hv). exists s. split; [reflexivity|].
      apply in_paths. exists n, v, q. split; [apply K; reflexivity|]. auto.
    - intros p w Hp. apply in_paths in Hp as (n & v & q & Hi & -> & Hq). destruct (A _ _ Hi) as (e & He & E).
      destruct (IH _ _ _ He E) as [_ I2]. destruct (I2 v q w eq_refl Hq) as (s & Hs & Ht & ->). exists s. split; [|auto]. econstructor; eassumption.
  Qed.
  Lemma entry_adds e : proper e -> forall name o, entry_templates ext pre name e = Ok o -> adds name e o.
  Proof.
    induction e as [t|d IH] using entry_ind'; intros Hp name o H.
    - cbn [entry_templates] in H. destruct (endswith ext name) eqn:E.
      + destruct t as [s|x]; cbn [rbind] in H; [|discriminate H]. apply Ok_inv in H. subst o. apply endswith_spec in E as [base E]. split.
        * intros p t K _. inversion K; subst. exists s, (EStr (pre s)). split; [reflexivity|]. split; [reflexivity|]. left. reflexivity.
        * intros v p w Ev Hv. assert (v = EStr (pre s)) as -> by congruence. destruct Hv as [Hv|[]]. apply pair_equal_spec in Hv as [<- <-].
          exists s. split; [constructor|]. split; [exists base; exact E|reflexivity].
      + apply Ok_inv in H. subst o. split; [|discriminate]. intros p u K [base Hb]. inversion K; subst. cbn [last] in Hb.
        assert (endswith ext name = true) by (apply endswith_spec; exists base; exact Hb). congruence.
    - rewrite templates_dir in H. destruct (load_entries ext pre d []) as [r|x] eqn:E; cbn [rbind] in H; [|discriminate H]. apply Ok_inv in H.
      inversion Hp as [|? Hn Hd]; subst. rewrite Forall_forall in IH.
      assert (L : adds_all d r). { apply load_adds; [exact Hn| |exact E]. intros n e o' Hi. apply (IH _ Hi). apply (Hd _ _ Hi). }
      destruct L as [L1 L2]. split.
      + intros p t K Ht. assert (Hp' : p <> []) by (inversion K; discriminate). apply (template_tail name p Hp') in Ht.
        destruct (L1 _ _ K Ht) as (s & -> & Hi). exists s. destruct r as [|kv r]; [destruct Hi|]. exists (EDict (kv :: r)). split; [reflexivity|]. split; [reflexivity|]. exact Hi.
      + intros v p w Ev Hv. destruct r as [|kv r]; [discriminate Ev|]. assert (v = EDict (kv :: r)) as -> by congruence. rewrite val_paths_dict in Hv.
        destruct (L2 _ _ Hv) as (s & Hs & Ht & ->). exists s. split; [exact Hs|]. split; [|reflexivity]. apply template_tail; [inversion Hs; discriminate|exact Ht].
  Qed.
  Lemma load_all l r : proper (TDir l) -> load_entries ext pre l [] = Ok r -> adds_all l r.
  Proof. intros Hp H. inversion Hp as [|? Hn Hd]; subst. apply load_adds; [exact Hn| |exact H]. intros n e o Hi. apply entry_adds. apply (Hd _ _ Hi). Qed.

  (* the errors *)
  Lemma entry_error e : forall name x, entry_templates ext pre name e = Exc x -> exists p, file_at e p (Exc x) /\ template_path ext (name :: p).
  Proof.
    induction e as [t|d IH] using entry_ind'; intros name x H.
    - cbn [entry_templates] in H. destruct (endswith ext name) eqn:E; [|discriminate H]. destruct t as [s|y]; cbn [rbind] in H; [discriminate H|].
      assert (y = x) as -> by congruence. exists []. split; [constructor|]. apply endswith_spec in E as [base E]. exists base. exact E.
    - rewrite templates_dir in H. destruct (load_entries ext pre d []) as [r|y] eqn:E; cbn [rbind] in H; [discriminate H|]. assert (y = x) as -> by congruence. clear H.
      assert (G : forall l acc, Forall (fun ne => forall name x, entry_templates ext pre name (snd ne) = Exc x -> exists p, file_at (snd ne) p (Exc x) /\ template_path ext (name :: p)) l ->
        load_entries ext pre l acc = Exc x -> exists n e p, In (n, e) l /\ file_at e p (Exc x) /\ template_path ext (n :: p)).
      { induction l as [|[n e] l IHl]; intros acc HF H; cbn [load_entries fst snd] in H; [discriminate H|]. inversion HF as [|? ? F1 F2]; subst.
        destruct (entry_templates ext pre n e) as [o|y] eqn:E1; cbn [rbind] in H.
        - destruct (IHl _ F2 H) as (n' & e' & p & Hi & K). exists n', e', p. split; [right; exact Hi|exact K].
        - assert (y = x) as -> by congruence. destruct (F1 _ _ E1) as (p & K). exists n, e, p. split; [left; reflexivity|exact K]. }
      destruct (G d [] IH E) as (n & e & p & Hi & Hf & Ht). exists (n :: p). split; [econstructor; eassumption|]. exact Ht.
  Qed.
End Load.

(* ---- the flat names *)
Lemma in_dupd (a b : dict env_val) k v : In (k, v) (dupd a b) -> NoDup (keys a) -> In (k, v) a \/ In (k, v) b.
Proof.
  intros H Ha. assert (E : dget k (dupd a b) = Some v) by (apply in_dget; [apply dupd_nodup; exact Ha|exact H]).
  rewrite dget_dupd_rev in E. destruct (dget k (rev b)) as [u|] eqn:E2.
  - right. assert (u = v) as -> by congruence. apply in_rev. apply dget_in. exact E2.
  - left. apply dget_in. exact E.
Qed.
Lemma keys_dupd (a b : dict env_val) k : In k (keys a) \/ In k (keys b) -> In k (keys (dupd a b)).
Proof.
  intros H. destruct (dget k (dupd a b)) as [v|] eqn:E; [apply dget_in, (in_map fst) in E; exact E|]. exfalso. rewrite dget_dupd_rev in E.
  destruct (dget k (rev b)) as [u|] eqn:E2; [discriminate E|]. apply dget_none in E, E2. destruct H as [H|H]; [exact (E H)|].
  apply E2. unfold keys. rewrite map_rev, <- in_rev. exact H.
Qed.
Definition flat_of (key : str) (x : env_val) (f : dict env_val) : Prop :=
  (forall k v, In (k, v) f -> exists p, In (p, v) (val_paths x) /\ k = join [DOT] (key :: p)) /\
  (forall p v, In (p, v) (val_paths x) -> In (join [DOT] (key :: p)) (keys f)).
Lemma flat_fold key (Hk : key <> []) d : Forall (fun kv => forall key, key <> [] -> flat_of key (snd kv) (flat_value key (snd kv)) /\ NoDup (keys (flat_value key (snd kv)))) d ->
  forall acc, NoDup (keys acc) ->
  let f := fold_left (fun flat kv => dupd flat (flat_value (child_key key (fst kv)) (snd kv))) d acc in
  NoDup (keys f) /\
  (forall k v, In (k, v) f -> In (k, v) acc \/ exists p, In (p, v) (paths d) /\ k = join [DOT] (key :: p)) /\
  (forall k, In k (keys acc) -> In k (keys f)) /\ (forall p v, In (p, v) (paths d) -> In (join [DOT] (key :: p)) (keys f)).
Proof.
  induction d as [|[n x] d IH]; intros HF acc Ha; cbn [fold_left fst snd].
  - split; [exact Ha|]. split; [auto|]. split; [auto|]. intros p v [].
  - inversion HF as [|? ? F1 F2]; subst. cbn [snd] in F1. assert (Hc : child_key key n <> []) by (unfold child_key; destruct key; [congruence|discriminate]).
    destruct (F1 _ Hc) as [[G1 G2] _]. destruct (IH F2 (dupd acc (flat_value (child_key key n) x)) (dupd_nodup _ _ Ha)) as (I0 & I1 & I2 & I3).
    split; [exact I0|]. split; [|split].
    + intros k v H. destruct (I1 _ _ H) as [K|(p & K & E)].
      * apply in_dupd in K as [K|K]; [left; exact K| |exact Ha]. right. destruct (G1 _ _ K) as (p & Hp & ->). exists (n :: p).
        split; [rewrite paths_cons'; apply in_app_iff; left; apply in_map_iff; exists (p, v); split; [reflexivity|exact Hp]|]. apply join_child. exact Hk.
      * right. exists p. split; [rewrite paths_cons'; apply in_app_iff; right; exact K|exact E].
    + intros k K. apply I2, keys_dupd. left. exact K.
    + intros p v K. rewrite paths_cons' in K. apply in_app_iff in K as [K|K]; [|exact (I3 _ _ K)].
      apply in_map_iff in K as ([q u] & E & K). apply pair_equal_spec in E as [<- <-]. apply I2, keys_dupd. right. cbn [fst]. rewrite <- join_child by exact Hk. exact (G2 _ _ K).
Qed.
Lemma flat_value_of x : forall key, key <> [] -> flat_of key x (flat_value key x) /\ NoDup (keys (flat_value key x)).
Proof.
  assert (Leaf : forall key y, flat_value key y = [(key, y)] -> val_paths y = [([], y)] -> flat_of key y (flat_value key y) /\ NoDup (keys (flat_value key y))).
  { intros key y -> E. split; [|repeat constructor; intros []]. split.
    - intros k v [K|[]]. apply pair_equal_spec in K as [<- <-]. exists []. rewrite E. split; [left; reflexivity|reflexivity].
    - intros p v K. rewrite E in K. destruct K as [K|[]]. apply pair_equal_spec in K as [<- <-]. left. reflexivity. }
  induction x as [s|l|o|d IH] using env_val_ind'; intros key Hk; try (apply Leaf; reflexivity).
  destruct d as [|kv d]; [apply Leaf; reflexivity|].
  change (flat_value key (EDict (kv :: d))) with (fold_left (fun flat kv => dupd flat (flat_value (child_key key (fst kv)) (snd kv))) (kv :: d) []).
  destruct (flat_fold key Hk (kv :: d) IH [] (NoDup_nil _)) as (I0 & I1 & _ & I3). split; [|exact I0]. split.
  - intros k v K. destruct (I1 _ _ K) as [[]|K']. rewrite val_paths_dict. exact K'.
  - intros p v K. rewrite val_paths_dict in K. exact (I3 _ _ K).
Qed.
Lemma flatten_of d : (forall n, In n (keys d) -> n <> []) ->
  (forall k v, in_dict k d = Some v -> exists p, In (p, v) (paths d) /\ k = join [DOT] p) /\
  (forall p v, In (p, v) (paths d) -> in_dict (join [DOT] p) d <> None).
Proof.
  intros Hn. unfold in_dict, env_from_dict, env_dupdate, env_empty.
  assert (G : forall l acc, (forall n, In n (keys l) -> n <> []) -> NoDup (keys acc) ->
    let f := fold_left (fun flat kv => dupd flat (flat_value (child_key [] (fst kv)) (snd kv))) l acc in
    NoDup (keys f) /\ (forall k v, In (k, v) f -> In (k, v) acc \/ exists p, In (p, v) (paths l) /\ k = join [DOT] p) /\
    (forall k, In k (keys acc) -> In k (keys f)) /\ (forall p v, In (p, v) (paths l) -> In (join [DOT] p) (keys f))).
  { clear Hn d. induction l as [|[n x] l IH]; intros acc Hl Ha; cbn [fold_left fst snd].
    - split; [exact Ha|]. split; [auto|]. split; [auto|]. intros p v [].
    - change (child_key [] n) with n. destruct (flat_value_of x n) as [[G1 G2] _]; [apply Hl; left; reflexivity|].
      destruct (IH (dupd acc (flat_value n x))) as (I0 & I1 & I2 & I3); [intros k K; apply Hl; right; exact K|apply dupd_nodup; exact Ha|].
      split; [exact I0|]. split; [|split].
      + intros k v H. destruct (I1 _ _ H) as [K|(p & K & E)].
        * apply in_dupd in K as [K|K]; [left; exact K| |exact Ha]. right. destruct (G1 _ _ K) as (p & Hp & ->). exists (n :: p).
          split; [rewrite paths_cons'; apply in_app_iff; left; apply in_map_iff; exists (p, v); split; [reflexivity|exact Hp]|reflexivity].
        * right. exists p. split; [rewrite paths_cons'; apply in_app_iff; right; exact K|exact E].
      + intros k K. apply I2, keys_dupd. left. exact K.
      + intros p v K. rewrite paths_cons' in K. apply in_app_iff in K as [K|K]; [|exact (I3 _ _ K)].
        apply in_map_iff in K as ([q u] & E & K). apply pair_equal_spec in E as [<- <-]. apply I2, keys_dupd. right. exact (G2 _ _ K). }
  destruct (G d [] Hn (NoDup_nil _)) as (I0 & I1 & _ & I3). change (fold_left _ d []) with (flatten_nested_dict [] d) in *. cbv zeta in *.
  rewrite dupd_nil by exact I0. split.
  - intros k v H. apply dget_in in H. destruct (I1 _ _ H) as [[]|K]. exact K.
  - intros p v H K. apply dget_none in K. exact (K (I3 _ _ H)).
Qed.

(* ------------------------------------------------------------------ C78 *)
Lemma loaded_keys ext pre l r : proper (TDir l) -> load_entries ext pre l [] = Ok r -> forall n, In n (keys r) -> n <> [].
Proof.
  intros Hp H n Hn. inversion Hp as [|? Hnd Hd]; subst. destruct (load_inv ext pre l Hnd [] r) as (new & Er & A & _); [intros ? _ []|exact H|]. cbn [app] in Er. subst new.
  unfold keys in Hn. apply in_map_iff in Hn as ([k v] & E & Hi). cbn [fst] in E. subst k. destruct (A _ _ Hi) as (e & He & _). apply (Hd _ _ He).
Qed.

(* Only the files with the extension are loaded, each with its text, and under the
   name made of its directories and its own name. *)
Theorem C78_only ext pre disk path entries dict k v :
  disk path = Ok entries -> proper (TDir entries) -> load_path disk ext pre path = Ok dict -> in_dict k dict = Some v ->
  exists p text, file_at (TDir entries) p (Ok text) /\ template_path ext p /\ k = dotted p /\ v = EStr (pre text).
Proof.
  intros Ed Hp H Hk. unfold load_path in H. rewrite Ed in H. cbn [rbind] in H. destruct (flatten_of dict (loaded_keys _ _ _ _ Hp H)) as [F _].
  destruct (F _ _ Hk) as (p & Hi & ->). destruct (load_all ext pre entries dict Hp H) as [_ L]. destruct (L _ _ Hi) as (s & Hs & Ht & ->). exists p, s. auto.
Qed.
(* All of them are: the text is the one of the file, unless another one has the same name. *)
Theorem C78_all ext pre disk path entries dict p t :
  disk path = Ok entries -> proper (TDir entries) -> load_path disk ext pre path = Ok dict ->
  file_at (TDir entries) p t -> template_path ext p ->
  exists text, t = Ok text /\ in_dict (dotted p) dict <> None /\
    ((forall q u, file_at (TDir entries) q u -> template_path ext q -> dotted q = dotted p -> q = p) -> in_dict (dotted p) dict = Some (EStr (pre text))).
Proof.
  intros Ed Hp H Hf Ht. pose proof (C78_only ext pre disk path entries dict) as Only. unfold load_path in H. rewrite Ed in H. cbn [rbind] in H.
  destruct (load_all ext pre entries dict Hp H) as [L _]. destruct (L _ _ Hf Ht) as (s & -> & Hi). exists s. split; [reflexivity|].
  destruct (flatten_of dict (loaded_keys _ _ _ _ Hp H)) as [_ F]. pose proof (F _ _ Hi) as N. change (join [DOT] p) with (dotted p) in N. split; [exact N|].
  intros U. destruct (in_dict (dotted p) dict) as [v|] eqn:E; [|congruence].
  destruct (Only (dotted p) v Ed Hp) as (q & text & Hq & Htq & Eq & ->); [unfold load_path; rewrite Ed; exact H|exact E|].
  assert (q = p) as -> by (eapply U; [exact Hq|exact Htq|congruence]).
  assert (D : forall e p a b, proper e -> file_at e p a -> file_at e p b -> a = b).
  { clear. intros e p a b Hp Ha. revert b. induction Ha as [t|d n e p t Hi Ha IH]; intros b Hb; inversion Hb as [|? ? e' ? ? Hi' Hb']; subst; [reflexivity|].
    inversion Hp as [|? Hn Hd]; subst. assert (e' = e) as ->; [|apply IH; [apply (Hd _ _ Hi)|exact Hb']].
    clear - Hn Hi Hi'. induction d as [|[m x] d IH]; [destruct Hi|]. cbn [map fst] in Hn. inversion Hn as [|? ? H1 H2]; subst.
    destruct Hi as [Hi|Hi], Hi' as [Hi'|Hi']; try (apply IH; assumption).
    - congruence.
    - apply pair_equal_spec in Hi as [-> _]. destruct H1. apply in_map_iff. exists (n, e'). auto.
    - apply pair_equal_spec in Hi' as [-> _]. destruct H1. apply in_map_iff. exists (n, e). auto. }
  assert (Ok text = Ok s) as K by (eapply D; eassumption). apply Ok_inv in K. subst text. reflexivity.
Qed.
(* It fails only for a file with the extension that cannot be read. *)
Theorem C78_errors ext pre disk path entries x :
  disk path = Ok entries -> load_path disk ext pre path = Exc x -> exists p, file_at (TDir entries) p (Exc x) /\ template_path ext p.
Proof.
  intros Ed H. unfold load_path in H. rewrite Ed in H. cbn [rbind] in H.
  destruct (entry_error ext pre (TDir entries) [] x) as (p & Hf & Ht); [rewrite templates_dir, H; reflexivity|].
  exists p. split; [exact Hf|]. apply (template_tail ext [] p); [inversion Hf; discriminate|exact Ht].
Qed.
(* The order in which the directories are listed does not matter for the texts that
   are loaded, if no two files have the same name. *)
Theorem C78_order ext pre disk disk' path entries entries' dict dict' k :
  disk path = Ok entries -> disk' path = Ok entries' -> proper (TDir entries) -> proper (TDir entries') ->
  (forall p t, file_at (TDir entries) p t <-> file_at (TDir entries') p t) ->
  (forall p q t u, file_at (TDir entries) p t -> file_at (TDir entries) q u -> template_path ext p -> template_path ext q -> dotted p = dotted q -> p = q) ->
  load_path disk ext pre path = Ok dict -> load_path disk' ext pre path = Ok dict' -> in_dict k dict = in_dict k dict'.
Proof.
  intros E1 E2 P1 P2 Same U H1 H2.
  assert (G : forall v, in_dict k dict = Some v -> in_dict k dict' = Some v).
  { intros v Hv. destruct (C78_only _ _ _ _ _ _ _ _ E1 P1 H1 Hv) as (p & text & Hf & Ht & -> & ->).
    destruct (C78_all _ _ _ _ _ _ _ _ E2 P2 H2 (proj1 (Same _ _) Hf) Ht) as (s & Es & _ & K). apply Ok_inv in Es. subst s. apply K.
    intros q u Hq Htq E. eapply U; [apply Same; exact Hq|exact Hf|exact Htq|exact Ht|exact E]. }
  assert (G' : forall v, in_dict k dict' = Some v -> in_dict k dict = Some v).
  { intros v Hv. destruct (C78_only _ _ _ _ _ _ _ _ E2 P2 H2 Hv) as (p & text & Hf & Ht & -> & ->). apply Same in Hf.
    destruct (C78_all _ _ _ _ _ _ _ _ E1 P1 H1 Hf Ht) as (s & Es & _ & K). apply Ok_inv in Es. subst s. apply K.
    intros q u Hq Htq E. eapply U; [exact Hq|exact Hf|exact Htq|exact Ht|exact E]. }
  destruct (in_dict k dict) as [v|]; [symmetry; apply G; reflexivity|]. destruct (in_dict k dict') as [v|]; [apply G'; reflexivity|reflexivity].
Qed.

(* C78: a template is the custom one, or else it is looked for in the directories (the
   last first), then in the providers (the last first), then in the defaults. *)
Theorem C78_sources jc pre disk e flat : flat_env e -> all_templates (on_disk jc pre disk) e = Ok flat ->
  exists providers paths defaults,
    iter_if (env_get e (lit "mau.visitor.templates.providers")) = Ok providers /\
    iter_if (env_get e (lit "mau.visitor.templates.paths")) = Ok paths /\
    env_from_environment (jc_defaults jc) None = Ok defaults /\
    forall k, dget k flat = first_some
      ([dget (lit "mau.visitor.templates.custom." ++ k) e] ++ map (in_path (on_disk jc pre disk) k) (rev paths) ++
       map (in_provider jc k) (rev providers) ++ [dget k defaults]).
Proof. intros He H. exact (C48_sources (on_disk jc pre disk) e flat He H). Qed.

(* The templates of the visitor: a file of a path that is configured is the template
   of its name, if the name is not used by another file of that path, by the custom
   templates or by a path that comes later; the name is without the extension. *)
Theorem C78_visitor jc pre disk e v paths before path after entries p text base :
  flat_env e -> jinja_init (on_disk jc pre disk) e = Ok v ->
  iter_if (env_get e (lit "mau.visitor.templates.paths")) = Ok paths -> paths = before ++ path :: after -> path <> [] ->
  disk path = Ok entries -> proper (TDir entries) ->
  file_at (TDir entries) p (Ok text) -> template_path (jc_extension jc) p -> dotted p = base ++ jc_extension jc ->
  (forall q u, file_at (TDir entries) q u -> template_path (jc_extension jc) q -> dotted q = dotted p -> q = p) ->
  dget (lit "mau.visitor.templates.custom." ++ dotted p) e = None ->
  (forall later es q u, In later after -> later <> [] -> disk later = Ok es -> proper (TDir es) /\ (file_at (TDir es) q u -> template_path (jc_extension jc) q -> dotted q <> dotted p)) ->
  exists t, In t (jv_templates v) /\ from_name base (EStr (pre text)) = Ok t.
Proof.
  intros He H Ep -> Hpath Ed Hp Hf Ht Eb U Hc Hl. unfold jinja_init in H.
  destruct (all_templates (on_disk jc pre disk) e) as [flat|] eqn:Ea; cbn [rbind] in H; [|discriminate H].
  destruct (build_templates (jc_extension (on_disk jc pre disk)) flat) as [ts|] eqn:Et; cbn [rbind] in H; [|discriminate H].
  apply Ok_inv in H. subst v. cbn [jv_templates]. cbn [on_disk jc_extension] in Et.
  assert (Hload : exists dict, load_path disk (jc_extension jc) pre path = Ok dict).
  { unfold all_templates in Ea. destruct (env_from_environment _ None) as [d|]; cbn [rbind] in Ea; [|discriminate Ea]. destruct (load_providers _ e) as [pr|]; cbn [rbind] in Ea; [|discriminate Ea].
    unfold load_filesystem in Ea. rewrite Ep in Ea. cbn [rbind] in Ea.
    match type of Ea with rbind (load_each ?f _ _) _ = _ => destruct (load_each f (before ++ path :: after) env_empty) as [fs|] eqn:El; cbn [rbind] in Ea; [|discriminate Ea] end. clear Ea.
    clear - El Hpath. revert El. generalize env_empty. induction before as [|b before IH]; intros e0 El; cbn [app load_each] in El.
    - destruct path as [|c path]; [congruence|]. cbn [on_disk jc_path] in El. destruct (load_path disk (jc_extension jc) pre (c :: path)) as [dct|]; cbn [rbind] in El; [eauto|discriminate El].
    - match type of El with rbind ?m _ = _ => destruct m as [dct|]; cbn [rbind] in El; [|discriminate El] end. exact (IH _ El). }
  destruct Hload as [dict Hload].
  destruct (C78_all _ _ _ _ _ _ _ _ Ed Hp Hload Hf Ht) as (s & Es & _ & K). apply Ok_inv in Es. subst s. specialize (K U).
  destruct (C48_sources _ _ _ He Ea) as (providers & paths & defaults & _ & Ep' & _ & G). rewrite Ep in Ep'. apply Ok_inv in Ep'. subst paths.
  specialize (G (dotted p)). rewrite Hc in G. cbn [app first_some] in G. rewrite rev_app_distr in G. cbn [rev] in G. rewrite <- app_assoc, !map_app, <- !app_assoc, first_some_app in G. 
  assert (N : first_some (map (in_path (on_disk jc pre disk) (dotted p)) (rev after)) = None).
  { assert (A : forall later, In later (rev after) -> in_path (on_disk jc pre disk) (dotted p) later = None).
    { intros later Hi. rewrite <- in_rev in Hi. destruct later as [|c later]; [reflexivity|]. cbn [in_path on_disk jc_path].
      destruct (load_path disk (jc_extension jc) pre (c :: later)) as [dct|] eqn:E; [|reflexivity].
      destruct (in_dict (dotted p) dct) as [w|] eqn:Ew; [|reflexivity]. exfalso. destruct (disk (c :: later)) as [es|] eqn:Eds; [|unfold load_path in E; rewrite Eds in E; discriminate E].
      destruct (Hl _ es [] (Ok []) Hi ltac:(discriminate) Eds) as [Hes _].
      destruct (C78_only _ _ _ _ _ _ _ _ Eds Hes E Ew) as (q & t & Hq & Htq & Eq & _). destruct (Hl _ es q (Ok t) Hi ltac:(discriminate) Eds) as [_ Hn]. apply (Hn Hq Htq). symmetry. exact Eq. }
    clear G. induction (rev after) as [|a l IH]; [reflexivity|]. cbn [map first_some]. rewrite A by (left; reflexivity). apply IH. intros later Hi. apply A. right. exact Hi. }
  rewrite N in G. cbn [map app first_some] in G. destruct path as [|c path]; [congruence|]. cbn [in_path on_disk jc_path] in G. rewrite Hload, K in G. cbn [first_some] in G.
  apply dget_in in G. rewrite Eb in G.
  assert (R : forall fl tss, build_templates (jc_extension jc) fl = Ok tss -> In (base ++ jc_extension jc, EStr (pre text)) fl -> exists t, from_name base (EStr (pre text)) = Ok t).
  { clear. induction fl as [|[n c] fl IH]; intros tss H Hi; [destruct Hi|]. cbn [build_templates] in H. destruct Hi as [Hi|Hi].
    - apply pair_equal_spec in Hi as [-> ->]. replace (endswith (jc_extension jc) (base ++ jc_extension jc)) with true in H by (symmetry; apply endswith_spec; exists base; reflexivity).
      rewrite removesuffix_app in H. destruct (from_name base (EStr (pre text))) as [t|]; [eauto|discriminate H].
    - destruct (endswith (jc_extension jc) n).
      + destruct (from_name _ c) as [t|]; cbn [rbind] in H; [|discriminate H]. destruct (build_templates (jc_extension jc) fl) as [ts'|]; [eapply IH; [reflexivity|exact Hi]|discriminate H].
      + eapply IH; eassumption. }
  destruct (R _ _ Et G) as [t Hfrom]. exists t. split; [|exact Hfrom]. apply sort_in. apply (C48_loaded _ _ _ Et). exists base, (EStr (pre text)). split; [exact G|exact Hfrom].
Qed.

(* Two files can have the same name: one of them is lost, and which one depends on the
   order in which they are listed. *)
Definition clash (swap : bool) : list (str * entry) :=
  let a := (lit "text", TDir [(lit "tg_x.j2", TFile (Ok (lit "one")))]) in let b := (lit "text.tg_x.j2", TFile (Ok (lit "two"))) in if swap then [b; a] else [a; b].
Theorem C78_refuted_names : exists dict dict',
  load_path (fun _ => Ok (clash false)) (lit ".j2") (fun t => t) (lit "p") = Ok dict /\ load_path (fun _ => Ok (clash true)) (lit ".j2") (fun t => t) (lit "p") = Ok dict' /\
  in_dict (lit "text.tg_x.j2") dict = Some (EStr (lit "two")) /\ in_dict (lit "text.tg_x.j2") dict' = Some (EStr (lit "one")).
Proof. do 2 eexists. split; [vm_compute; reflexivity|]. split; [vm_compute; reflexivity|]. split; vm_compute; reflexivity. Qed.
(* Even when all the names are different, the template that is used for a node can
   depend on that order. *)
Definition files2 (swap : bool) : list (str * entry) :=
  let a := (lit "text.tg_x.j2", TFile (Ok (lit "one"))) in let b := (lit "text.tg_y.j2", TFile (Ok (lit "two"))) in if swap then [b; a] else [a; b].
Definition chosen_from (entries : list (str * entry)) (n : jnode) : option env_val :=
  match jinja_init (on_disk (mkJconfig (lit ".j2") [] [] (fun _ => Ok [])) (fun t => t) (fun _ => Ok entries))
          (env_from_dict [(lit "mau.visitor.templates.paths", EList [lit "p"])] None) with
  | Ok v => match find_template v n ExFuel with Ok t => Some (tp_content t) | Exc _ => None end
  | Exc _ => None
  end.
Theorem C78_refuted_order :
  chosen_from (files2 false) (ex_text [lit "x"; lit "y"] None) = Some (EStr (lit "one")) /\
  chosen_from (files2 true) (ex_text [lit "x"; lit "y"] None) = Some (EStr (lit "two")).
Proof. split; vm_compute; reflexivity. Qed.

(* A directory that satisfies the hypotheses, with a file that cannot be read but has
   another extension and an empty directory. *)
Definition folder1 : list (str * entry) :=
  [(lit "text", TDir [(lit "pf_web.j2", TFile (Ok (lit "a"))); (lit "tg_x", TDir [(lit "big.j2", TFile (Ok (lit "b")))]); (lit "empty", TDir [])]);
   (lit "notes.txt", TFile (Exc (ExPy "PermissionError"))); (lit "document.j2", TFile (Ok (lit "c")))].
Example C78_ex : proper (TDir folder1) /\
  (exists dict, load_path (fun _ => Ok folder1) (lit ".j2") (fun t => t) (lit "p") = Ok dict /\
    env_from_dict dict None = [(lit "text.pf_web.j2", EStr (lit "a")); (lit "text.tg_x.big.j2", EStr (lit "b")); (lit "document.j2", EStr (lit "c"))]) /\
  file_at (TDir folder1) [lit "text"; lit "tg_x"; lit "big.j2"] (Ok (lit "b")) /\ template_path (lit ".j2") [lit "text"; lit "tg_x"; lit "big.j2"] /\
  chosen_from folder1 (mkFacet (lit "text") (Some (lit "big")) [lit "x"] [], None) = Some (EStr (lit "b")).
Proof.
  split.
  { assert (nd : forall l : list str, (fix go (l : list str) := match l with [] => true | a :: r => negb (mem_str a r) && go r end) l = true -> NoDup l).
    { induction l as [|a l IH]; intros H; [constructor|]. apply andb_true_iff in H as [H1 H2]. constructor; [|exact (IH H2)]. intros K. apply mem_str_In in K. rewrite K in H1. discriminate H1. }
    repeat match goal with
    | |- proper (TFile _) => apply proper_file
    | |- proper (TDir _) => apply proper_dir; [apply nd; vm_compute; reflexivity|]; let n := fresh in let e := fresh in let K := fresh in intros n e K; cbn [In] in K; repeat (destruct K as [K|K]; [apply pair_equal_spec in K as [<- <-]; split; [discriminate|]|]); try destruct K
    end. }
  split; [eexists; split; vm_compute; reflexivity|]. split; [|split; [exists (lit "big"); reflexivity|vm_compute; reflexivity]].
  econstructor; [left; reflexivity|]. econstructor; [right; left; reflexivity|]. econstructor; [left; reflexivity|]. constructor.
Qed.
