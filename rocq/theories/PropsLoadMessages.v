(** C94: the errors of loads say what is not there. *)
From Coq Require Import NArith Lia String List Bool.
From Coq.Strings Require Import Byte.
From Verif Require Import Base BaseFacts Metadata Tables Runtime Loader Texts LoadMessages SpecRuntime SpecBody SpecLoader SpecHistory SpecLoadMessages
  HistoryProofs LoadMessageFacts DemoImages DemoStates ZooImages ZooStates PropsLoader.
Import ListNotations.
Open Scope N_scope.

Lemma text_sound p fs paths : forall fuel data s t s', history p fs paths s -> load_text fuel p fs data s = Ok (Some t) s' ->
  lacks p fs fuel data s t.
Proof.
  induction fuel as [|f IH]; intros data s t s' H E; [discriminate|]. destruct (text_image _ _ _ _ _ _ _ E) as (md & n & I).
  rewrite (text_step _ _ _ _ _ _ _ I) in E. apply bind_inv_ok in E as (o & s1 & E1 & E). apply references_sound in E1. destruct o as [t'|].
  - injection E as -> _. destruct E1 as (b & r & a & s2 & Eb & O & [[N ->]|(rn & s3 & T & Q & B)]).
    + eapply no_assembly_name; eauto.
    + apply by_name_sound in B as [[-> N]|(c & x & F & X & B)]; [eapply no_assembly; eauto|].
      pose proof (obtained_history _ _ paths _ _ _ _ _ O H) as H2. eapply further_down; eauto.
  - pose proof (obtained_history _ _ paths _ _ _ _ _ E1 H) as H2.
    apply bind_inv_ok in E as (o & s2 & E2 & E). pose proof (methods_sound _ _ _ _ n _ H2 (counted _ _ _ _ I) _ _ _ E2) as [-> F].
    destruct o as [t'|].
    + injection E as -> _. remember (tb_member_ref (m_tables md)) as rows eqn:Er.
      inversion F; subst t rows; [eapply no_parent|eapply no_method_name|eapply no_method]; eauto.
    + pose proof (types_sound _ _ _ _ n _ H2 _ _ _ E) as [-> X]. remember (tb_type_ref (m_tables md)) as rows eqn:Er.
      inversion X; subst t rows. eapply no_type; eauto.
Qed.
Lemma text_complete p fs paths : forall fuel data s t, lacks p fs fuel data s t -> history p fs paths s ->
  exists s', load_text fuel p fs data s = Ok (Some t) s'.
Proof.
  assert (R : forall f data md n before r after s s1 t, image_of p data md n -> tb_assembly_ref (m_tables md) = before ++ r :: after ->
    obtained p fs f md before s s1 -> history p fs paths s -> reference_lacks p fs f md n r s1 t ->
    exists s', load_text (S f) p fs data s = Ok (Some t) s').
  { intros f data md n before r after s s1 t I Eb O H X. rewrite (text_step _ _ _ _ _ _ _ I), Eb.
    destruct (references_complete p fs paths f md n before r after s s1 t (all_silent _ _ _ _) H O X) as [s' Y]. unfold bind. rewrite Y. eexists. reflexivity. }
  assert (A : forall f data md n s s1, image_of p data md n -> obtained p fs f md (tb_assembly_ref (m_tables md)) s s1 -> history p fs paths s ->
    load_text (S f) p fs data s = (t <- method_refs_text p md n (tb_member_ref (m_tables md)) ;;
       match t with Some t => ret (Some t) | None => type_refs_text md n (tb_type_ref (m_tables md)) end) s1).
  { intros f data md n s s1 I O H. rewrite (text_step _ _ _ _ _ _ _ I). unfold bind at 1.
    pose proof (references_past p fs paths f md n [] (all_silent _ _ _ _) _ _ _ H O) as Y. rewrite app_nil_r in Y. rewrite Y. reflexivity. }
  intros fuel data s t X. induction X; intro Hh.
  - eapply R; eauto. right. exists rn, s1. split; [assumption|]. split; [assumption|]. now apply by_name_missing.
  - pose proof (obtained_history _ _ paths _ _ _ _ _ H1 Hh) as H2'. destruct (IHX H2') as [s' E].
    eapply R; eauto. right. exists rn, s'. split; [assumption|]. split; [assumption|]. rewrite (by_name_file _ _ _ _ _ _ H4 H5). exact E.
  - eapply R; eauto. left. auto.
  - rewrite (A _ _ _ _ _ _ H H0 Hh), H1. pose proof (obtained_history _ _ paths _ _ _ _ _ H0 Hh) as H2'. unfold bind.
    rewrite (methods_complete _ _ _ _ n _ H2' _ _ (ml_parent _ _ _ _ _ _ _ H2 H3 H4 H5)). eexists. reflexivity.
  - rewrite (A _ _ _ _ _ _ H H0 Hh), H1. pose proof (obtained_history _ _ paths _ _ _ _ _ H0 Hh) as H2'. unfold bind.
    rewrite (methods_complete _ _ _ _ n _ H2' _ _ (ml_name _ _ _ _ _ _ _ _ H2 H3 H4 H5 H6)). eexists. reflexivity.
  - rewrite (A _ _ _ _ _ _ H H0 Hh), H1. pose proof (obtained_history _ _ paths _ _ _ _ _ H0 Hh) as H2'. unfold bind.
    rewrite (methods_complete _ _ _ _ n _ H2' _ _ (ml_method _ _ _ _ _ _ _ _ _ H2 H3 H4 H5 H6 H7)). eexists. reflexivity.
  - rewrite (A _ _ _ _ _ _ H H0 Hh), H2. pose proof (obtained_history _ _ paths _ _ _ _ _ H0 Hh) as H2'. unfold bind.
    rewrite (methods_there _ _ _ _ n _ H2' _ H1), (types_complete _ _ _ _ n _ H2' _ _ (tl_type _ _ _ _ _ _ _ _ H3 H4 H5 H6)). eexists. reflexivity.
Qed.

(** In a runtime that has been used in any way, a load has one of these texts exactly when the first thing
    that it does not find is what the text names. *)
Theorem C94_named p fs paths fuel data s t : history p fs paths s ->
  ((exists s', load_text fuel p fs data s = Ok (Some t) s') <-> lacks p fs fuel data s t).
Proof.
  intro H. split.
  - intros [s' E]. eapply text_sound; eauto.
  - intro X. eapply text_complete; eauto.
Qed.

(** Loads by name: there is no file, or the file lacks something. *)
Theorem C94_by_name p fs paths fuel n s t : history p fs paths s ->
  ((exists s', load_assembly_text fuel p fs n s = Ok (Some t) s') <->
   (t = bytes_of_string "Could not locate assembly with name " ++ n /\ forall c, In c (candidates paths n) -> fs (fst c) (snd c) = Missing) \/
   exists c data, first_there (fun c => fs (fst c) (snd c) <> Missing) (candidates paths n) c /\ fs (fst c) (snd c) = File data /\
     lacks p fs fuel data s t).
Proof.
  intro H. destruct (history_ok _ _ _ _ H) as (_ & P & _). rewrite <- P. unfold load_assembly_text. split.
  - intros [s' E]. apply by_name_sound in E as [X|(c & x & F & X & E)]; [left; exact X|]. right. exists c, x. split; [exact F|]. split; [exact X|].
    eapply text_sound; eauto.
  - intros [[-> F]|(c & x & F & X & Y)]; [eexists; now apply by_name_missing|].
    rewrite (by_name_file _ _ _ _ _ _ F X). eapply text_complete; eauto.
Qed.

(** A load that lacks something fails, with the error of this text, and it lacks one thing only; one that succeeds lacks nothing. *)
Theorem C94_fails p fs paths fuel data s t : history p fs paths s -> lacks p fs fuel data s t ->
  (exists e s', load_data fuel p fs data s = Err e s' /\ fixed_part e t) /\ forall t', lacks p fs fuel data s t' -> t' = t.
Proof.
  intros H X. destruct (text_complete _ _ paths _ _ _ _ X H) as [s1 E]. split; [eapply text_fails; eauto|].
  intros t' Y. destruct (text_complete _ _ paths _ _ _ _ Y H) as [s2 E']. congruence.
Qed.
Theorem C94_silent p fs paths fuel data s a s1 : history p fs paths s -> load_data fuel p fs data s = Ok a s1 ->
  (exists s', load_text fuel p fs data s = Ok None s') /\ forall t, ~ lacks p fs fuel data s t.
Proof.
  intros H E. split; [eapply all_silent; eauto|]. intros t X. destruct (C94_fails _ _ _ _ _ _ _ H X) as [(e & s' & E' & _) _]. congruence.
Qed.

(** ** Examples *)

Definition text_of (s : string) : name := bytes_of_string s.
(** The client with one byte changed: in the name of the method that it refers to, the place of this name,
    or the place of the name of the assembly that it refers to. *)
Definition bun_image : list byte := Eval vm_compute in firstn 750 client_image ++ x42 :: skipn 751 client_image.
Definition nameless_image : list byte := Eval vm_compute in firstn 659 client_image ++ xff :: skipn 660 client_image.
Definition lost_image : list byte := Eval vm_compute in firstn 719 client_image ++ xff :: skipn 720 client_image.
Example C94_named_example p : history p no_files [] demo_zoo /\ history p no_files [] demo_vm /\
  lacks p no_files 10 odd_image demo_zoo (text_of "Cannot find type Zoo.Xelper referenced by Client") /\
  lacks p no_files 10 bun_image demo_zoo (text_of "Unable to find Zoo.Helper.Bun referenced by Client") /\
  lacks p no_files 10 nameless_image demo_zoo (text_of "Unable to load methods referenced by Client") /\
  lacks p no_files 10 lost_image demo_zoo (text_of "Client contains invalid assembly references") /\
  lacks p no_files 10 client_image demo_vm (text_of "Could not locate assembly with name Zoo").
Proof.
  assert (Z : history p no_files [] demo_zoo) by apply demo_zoo_history. assert (V : history p no_files [] demo_vm) by apply demo_vm_history.
  split; [exact Z|]. split; [exact V|].
  repeat split; [apply (text_sound p no_files [] 10 odd_image demo_zoo _ demo_zoo Z)|apply (text_sound p no_files [] 10 bun_image demo_zoo _ demo_zoo Z)
    |apply (text_sound p no_files [] 10 nameless_image demo_zoo _ demo_zoo Z)|apply (text_sound p no_files [] 10 lost_image demo_zoo _ demo_zoo Z)
    |apply (text_sound p no_files [] 10 client_image demo_vm _ demo_vm V)]; destruct p; vm_compute; reflexivity.
Qed.
(** On this disk the assembly [Zoo], which the client refers to, refers to a type that is not there. *)
Definition zoo_files : file_system := fun d f =>
  if is_file d f "/app" "Zoo.exe" then File (firstn 931 zoo_image ++ x58 :: skipn 932 zoo_image)
  else if is_file d f "/lib" "Client.dll" then File client_image
  else Missing.
Lemma zoo_disk_history p : history p zoo_files demo_paths demo_disk.
Proof.
  exists 10%nat, system_runtime, system_console, demo_disk. split; [destruct p; vm_compute; reflexivity|apply later_now].
Qed.
Example C94_by_name_example p : history p zoo_files demo_paths demo_disk /\
  (exists s', load_assembly_text 10 p zoo_files (text_of "Client") demo_disk =
     Ok (Some (text_of "Cannot find type System.XalueType referenced by Zoo")) s') /\
  (exists s', load_assembly_text 10 p zoo_files (text_of "Farm") demo_disk =
     Ok (Some (text_of "Could not locate assembly with name Farm")) s').
Proof.
  split; [apply zoo_disk_history|]. split; eexists; destruct p; vm_compute; reflexivity.
Qed.
Example C94_fails_example p : lacks p zoo_files 10 client_image demo_disk (text_of "Cannot find type System.XalueType referenced by Zoo").
Proof.
  apply (text_sound p zoo_files demo_paths 10 client_image demo_disk _ demo_disk (zoo_disk_history p)). destruct p; vm_compute; reflexivity.
Qed.
Example C94_silent_example p : history p no_files [] demo_zoo /\ load_data 10 p no_files client_image demo_zoo = Ok 3%nat demo_client.
Proof. split; [apply demo_zoo_history|apply demo_client_loaded]. Qed.

Print Assumptions C94_named.
Print Assumptions C94_by_name.
Print Assumptions C94_fails.
Print Assumptions C94_silent.
