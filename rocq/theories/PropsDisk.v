(** C96: the files on which loads, and whole runs of the host program, depend. *)
From Coq Require Import NArith Lia String List Bool.
From Coq.Strings Require Import Byte.
From Verif Require Import Base BaseFacts Metadata Tables Runtime Loader Interp Host SpecRuntime SpecBody SpecLoader SpecHistory SpecLoadMessages SpecDisk
  RuntimeInv InterpInv HistoryProofs BodyProofs LoaderFacts LayoutFacts LoaderRun LoadMessageFacts DemoImages DemoStates ZooImages ZooStates PropsLoader PropsLoadMessages PropsImage.
Import ListNotations.
Open Scope N_scope.

Lemma resolve_same fs1 fs2 paths n : same_finds fs1 fs2 paths ->
  resolve_assembly_name fs1 paths n = resolve_assembly_name fs2 paths n /\
  forall c, resolve_assembly_name fs1 paths n = Some c -> fs1 (fst c) (snd c) = fs2 (fst c) (snd c).
Proof.
  intro H. pose proof (resolve_name_spec fs1 n paths) as R1. pose proof (resolve_name_spec fs2 n paths) as R2.
  destruct (resolve_assembly_name fs1 paths n) as [c1|].
  - destruct (proj1 (H n c1 (fs1 (fst c1) (snd c1))) (conj R1 eq_refl)) as [F E].
    destruct (resolve_assembly_name fs2 paths n) as [c2|].
    + rewrite (first_unique _ _ _ _ R2 F). split; [reflexivity|]. intros c X. injection X as <-. now symmetry.
    + destruct F as (a & b & Ec & T & _). destruct T. apply R2. rewrite Ec. apply in_elt.
  - split; [|discriminate]. destruct (resolve_assembly_name fs2 paths n) as [c2|]; [|reflexivity].
    destruct (proj2 (H n c2 (fs2 (fst c2) (snd c2))) (conj R2 eq_refl)) as [(a & b & Ec & T & _) E].
    destruct T. apply R1. rewrite Ec. apply in_elt.
Qed.

Lemma bind_eq {A B} (m1 m2 : M vm A) (k1 k2 : A -> M vm B) s : m1 s = m2 s ->
  (forall a s', m1 s = Ok a s' -> k1 a s' = k2 a s') -> bind m1 k1 s = bind m2 k2 s.
Proof. intros E K. unfold bind. rewrite <- E. destruct (m1 s) eqn:X; auto. Qed.
Lemma iter_eq {A} (f1 f2 : A -> M vm unit) (I : vm -> Prop) : (forall x s, I s -> f1 x s = f2 x s) ->
  (forall x s s', I s -> f1 x s = Ok tt s' -> I s') -> forall l s, I s -> iter_m f1 l s = iter_m f2 l s.
Proof.
  intros E K l. induction l as [|x l IH]; intros s H; [reflexivity|]. cbn [iter_m]. apply bind_eq; [auto|].
  intros [] s' X. apply IH. eapply K; eauto.
Qed.

Section Disks.
  Variables (p : profile) (fs1 fs2 : file_system) (paths : list name).
  Hypothesis Same : same_finds fs1 fs2 paths.
  Let fine (s : vm) : Prop := consistent p s /\ c_paths s = paths.
  Lemma fine_load fuel data s a s' : fine s -> load_data fuel p fs1 data s = Ok a s' -> fine s'.
  Proof.
    intros [W P] E. destruct (pres_run_ok _ _ _ _ _ _ _ (load_data_pres p fs1 fuel data s) W E) as (W' & Ev & _).
    split; [exact W'|]. now rewrite (ev_paths _ _ Ev).
  Qed.
  Lemma load_same : forall fuel data s, fine s -> load_data fuel p fs1 data s = load_data fuel p fs2 data s.
  Proof.
    induction fuel as [|f IH]; intros data s H; [reflexivity|]. cbn [load_data].
    apply bind_eq; [reflexivity|]. intros md s1 E1. assert (s1 = s) as -> by (pose proof (pure_lift (S := vm) (read_metadata p data) s) as X; rewrite E1 in X; exact X).
    apply bind_eq; [reflexivity|]. intros row s1 E2. assert (s1 = s) as -> by (pose proof (pure_row_at p (tb_assembly (m_tables md)) (handle_of_position TAssembly 0) s) as X; rewrite E2 in X; exact X).
    apply bind_eq; [reflexivity|]. intros n s1 E3. assert (s1 = s) as -> by (pose proof (pure_unwrap (S := vm) (string_at md (as_name row)) s) as X; rewrite E3 in X; exact X).
    apply bind_eq; [|reflexivity]. apply iter_eq with (I := fine); [| |exact H].
    - intros r x Hx. apply bind_eq; [reflexivity|]. intros rn y Ey.
      assert (y = x) as -> by (pose proof (pure_ok_or (S := vm) (string_at md (ar_name r)) "invalid assembly references" x) as X; rewrite Ey in X; exact X).
      unfold bind at 1, get_state. unfold bind at 3. destruct (loaded _ _ rn); [reflexivity|].
      destruct Hx as [W P]. rewrite P. destruct (resolve_same fs1 fs2 paths rn Same) as [R F]. rewrite <- R.
      destruct (resolve_assembly_name fs1 paths rn) as [c|]; [|reflexivity]. unfold bind at 1. unfold bind at 2. cbn [ok_or]. unfold ret at 1 3.
      rewrite <- (F c eq_refl). destruct (fs1 (fst c) (snd c)) as [| |d]; try reflexivity.
      apply bind_eq; [|reflexivity]. apply IH. split; assumption.
    - intros r x y Hx E. apply bind_inv_ok in E as (rn & x1 & Ey & E).
      assert (x1 = x) as -> by (pose proof (pure_ok_or (S := vm) (string_at md (ar_name r)) "invalid assembly references" x) as X; rewrite Ey in X; exact X).
      unfold bind at 1, get_state in E. destruct (loaded _ _ rn); [injection E as <-; exact Hx|].
      destruct (resolve_assembly_name fs1 (c_paths x) rn) as [c|]; [|discriminate]. unfold bind at 1 in E. cbn [ok_or] in E. unfold ret at 1 in E.
      destruct (fs1 (fst c) (snd c)) as [| |d]; try discriminate. apply bind_inv_ok in E as (a & x2 & E4 & E). injection E as <-.
      eapply fine_load; eauto.
  Qed.
  Lemma load_name_same fuel n s : fine s -> load_assembly fuel p fs1 n s = load_assembly fuel p fs2 n s.
  Proof.
    intros H. rewrite !load_by_name. destruct H as [W P]. rewrite P. destruct (resolve_same fs1 fs2 paths n Same) as [R F]. rewrite <- R.
    destruct (resolve_assembly_name fs1 paths n) as [c|]; [|reflexivity]. rewrite <- (F c eq_refl).
    destruct (fs1 (fst c) (snd c)); try reflexivity. apply load_same. split; assumption.
  Qed.
  Lemma load_path_same fuel c s : fs1 (fst c) (snd c) = fs2 (fst c) (snd c) -> fine s -> load_path fuel p fs1 c s = load_path fuel p fs2 c s.
  Proof. intros E H. unfold load_path. rewrite <- E. destruct (fs1 _ _); try reflexivity. now apply load_same. Qed.
  Lemma new_runtime_same fuel rt con : new_runtime fuel p fs1 paths rt con = new_runtime fuel p fs2 paths rt con.
  Proof.
    unfold new_runtime. assert (H : fine (empty_vm paths)) by (split; [apply empty_consistent|reflexivity]).
    apply bind_eq; [now apply load_same|]. intros a s1 E1. pose proof (fine_load _ _ _ _ _ H E1) as H1.
    apply bind_eq; [now apply load_same|]. reflexivity.
  Qed.
End Disks.

(** Whatever the outcome, a load is the same on two disks on which the same is found for every name. *)
Theorem C96_loads p fs1 fs2 paths fuel data n s : history p fs1 paths s -> same_finds fs1 fs2 paths ->
  load_data fuel p fs1 data s = load_data fuel p fs2 data s /\ load_assembly fuel p fs1 n s = load_assembly fuel p fs2 n s.
Proof.
  intros H F. destruct (history_ok _ _ _ _ H) as (W & P & _). split; [eapply load_same|eapply load_name_same]; eauto.
Qed.
(** A load from a path depends on that file besides. *)
Theorem C96_from_path p fs1 fs2 paths fuel c s : history p fs1 paths s -> same_finds fs1 fs2 paths ->
  fs1 (fst c) (snd c) = fs2 (fst c) (snd c) -> load_path fuel p fs1 c s = load_path fuel p fs2 c s.
Proof. intros H F E. destruct (history_ok _ _ _ _ H) as (W & P & _). eapply load_path_same; eauto. Qed.
(** Starting the runtime. *)
Theorem C96_start p fs1 fs2 paths fuel rt con : same_finds fs1 fs2 paths ->
  new_runtime fuel p fs1 paths rt con = new_runtime fuel p fs2 paths rt con.
Proof. intro F. now apply new_runtime_same. Qed.

(** In particular files in other directories, and files in the search directories whose names do not end
    in .dll or .exe, have no influence ... *)
Theorem C96_elsewhere fs1 fs2 paths :
  (forall d n, In d paths -> fs1 d (n ++ bytes_of_string ".dll") = fs2 d (n ++ bytes_of_string ".dll") /\
                             fs1 d (n ++ bytes_of_string ".exe") = fs2 d (n ++ bytes_of_string ".exe")) -> same_finds fs1 fs2 paths.
Proof.
  intro H.
  assert (C : forall n c, In c (candidates paths n) -> fs1 (fst c) (snd c) = fs2 (fst c) (snd c)).
  { intros n c I. apply in_flat_map in I as (d & Id & [<-|[<-|[]]]); cbn [fst snd]; apply (H d n Id). }
  assert (Q : forall f1 f2 : file_system, (forall n c, In c (candidates paths n) -> f1 (fst c) (snd c) = f2 (fst c) (snd c)) ->
    forall n c e, found f1 paths n c e -> found f2 paths n c e).
  { intros f1 f2 K n c e [(a & b & E & T & N) X]. assert (I : In c (candidates paths n)) by (rewrite E; apply in_elt).
    split; [|now rewrite <- (K n c I)]. exists a, b. split; [exact E|]. split; [now rewrite <- (K n c I)|].
    intros y Iy Z. apply (N y Iy). rewrite (K n y); [exact Z|]. rewrite E. apply in_or_app. now left. }
  intros n c e. split; apply Q; [exact C|]. intros m x I. symmetry. eapply C; eauto.
Qed.
(** ... and neither have files of a name for which there is one before. *)
Theorem C96_hidden fs1 fs2 paths :
  (forall n c, In c (candidates paths n) -> fs1 (fst c) (snd c) = fs2 (fst c) (snd c) \/
     exists pre post b, candidates paths n = pre ++ c :: post /\ In b pre /\ fs1 (fst b) (snd b) <> Missing /\ fs2 (fst b) (snd b) <> Missing) ->
  (forall n, NoDup (candidates paths n)) -> same_finds fs1 fs2 paths.
Proof.
  intros H ND.
  assert (Q : forall f1 f2 : file_system, (forall n c, In c (candidates paths n) -> f1 (fst c) (snd c) = f2 (fst c) (snd c) \/
     exists pre post b, candidates paths n = pre ++ c :: post /\ In b pre /\ f1 (fst b) (snd b) <> Missing /\ f2 (fst b) (snd b) <> Missing) ->
    forall n c e, found f1 paths n c e -> found f2 paths n c e).
  { intros f1 f2 K n c e [(a & b & E & T & N) X]. assert (I : In c (candidates paths n)) by (rewrite E; apply in_elt).
    assert (U : forall pre y post, candidates paths n = pre ++ y :: post -> (y = c \/ In y a) -> forall z, In z pre -> In z a).
    { intros pre y post E' Y z Iz. pose proof (ND n) as D. rewrite E in E'. rewrite E in D. clear - D E' Y Iz.
      revert pre post E' Iz. induction a as [|x a IH]; intros pre post E' Iz.
      - destruct Y as [->|[]]. destruct pre as [|q pre]; [destruct Iz|]. cbn in E'. injection E' as <- E'. cbn in D. inversion D as [|? ? Nc _]; subst.
        destruct Nc. apply in_elt.
      - destruct pre as [|q pre]; [destruct Iz|]. cbn in E'. injection E' as <- E'. destruct Iz as [<-|Iz]; [now left|]. right.
        cbn in D. inversion D as [|? ? Nc D']; subst. destruct Y as [->|[->|Y]].
        + eapply IH; eauto.
        + destruct Nc. rewrite E'. apply in_elt.
        + eapply IH; eauto. }
    assert (Z : forall y, y = c \/ In y a -> f1 (fst y) (snd y) = f2 (fst y) (snd y)).
    { intros y Y. assert (Iy : In y (candidates paths n)) by (destruct Y as [->|Y]; [exact I|rewrite E; apply in_or_app; now left]).
      destruct (K n y Iy) as [L|(pre & post & q & E' & Iq & M1 & _)]; [exact L|]. destruct (N q); [|exact M1]. eapply U; eauto. }
    split; [|now rewrite <- (Z c (or_introl eq_refl))]. exists a, b. split; [exact E|]. split; [now rewrite <- (Z c (or_introl eq_refl))|].
    intros y Iy L. apply (N y Iy). rewrite (Z y (or_intror Iy)). exact L. }
  intros n c e. split; apply Q; [exact H|]. intros m x I. destruct (H m x I) as [L|(pre & post & b & A & B & C & D)]; [left; now symmetry|].
  right. exists pre, post, b. auto.
Qed.

(** Nothing is read from the disk if all that the image refers to is loaded. *)
Theorem C96_no_disk p fs1 fs2 fuel data md s : read_metadata p data tt = Ok md tt -> references_loaded s md ->
  load_data fuel p fs1 data s = load_data fuel p fs2 data s.
Proof.
  intros Em RL. destruct fuel as [|f]; [reflexivity|]. cbn [load_data].
  apply bind_eq; [reflexivity|]. intros md' s1 E1. assert (md' = md /\ s1 = s) as [-> ->] by (unfold lift in E1; rewrite Em in E1; split; congruence).
  apply bind_eq; [reflexivity|]. intros row s1 E2. assert (s1 = s) as -> by (pose proof (pure_row_at p (tb_assembly (m_tables md)) (handle_of_position TAssembly 0) s) as X; rewrite E2 in X; exact X).
  apply bind_eq; [reflexivity|]. intros n s1 E3. assert (s1 = s) as -> by (pose proof (pure_unwrap (S := vm) (string_at md (as_name row)) s) as X; rewrite E3 in X; exact X).
  apply bind_eq; [|reflexivity]. unfold references_loaded in RL. clear - RL. induction (tb_assembly_ref (m_tables md)) as [|r l IH]; [reflexivity|]. cbn [iter_m].
  apply bind_eq.
  { apply bind_eq; [reflexivity|]. intros rn y Ey. unfold ok_or in Ey. destruct (string_at md (ar_name r)) as [x|] eqn:T; [|discriminate]. injection Ey as <- <-.
    apply bind_eq; [reflexivity|]. intros z y Ez. injection Ez as <- <-. rewrite (loaded_is s x); [reflexivity|]. apply (RL r x); [now left|now apply string_at_inv]. }
  intros [] y E. apply bind_inv_ok in E as (rn & y1 & Ey & E). unfold ok_or in Ey. destruct (string_at md (ar_name r)) as [x|] eqn:T; [|discriminate].
  injection Ey as <- <-. apply bind_inv_ok in E as (z & y1 & Ez & E). injection Ez as <- <-.
  rewrite (loaded_is s x) in E; [|apply (RL r x); [now left|now apply string_at_inv]]. injection E as <-.
  apply IH. intros row m I. apply RL. now right.
Qed.

(** So the whole run of the host program depends only on what is found for the names, and on the file that
    it is asked to run. *)
Theorem C96_program fuel p fs1 fs2 paths rt con argument : same_finds fs1 fs2 paths ->
  (forall c, argument = Some c -> fs1 (fst c) (snd c) = fs2 (fst c) (snd c)) ->
  test_program fuel p fs1 paths rt con argument = test_program fuel p fs2 paths rt con argument.
Proof.
  intros F A. unfold test_program. apply bind_eq.
  { unfold unwrap_result. now rewrite (C96_start p fs1 fs2 paths fuel rt con F). }
  intros [] s E. assert (E0 : new_runtime fuel p fs1 paths rt con = Ok tt s).
  { unfold unwrap_result in E. destruct (new_runtime fuel p fs1 paths rt con) as [[] ?|? ?|?|?|]; try discriminate. congruence. }
  destruct (new_runtime_ok _ _ _ _ _ _ _ E0) as (W & P & _).
  destruct argument as [c|]; [|reflexivity]. unfold bind at 1. unfold bind at 5. unfold unwrap, ret at 1 3. apply bind_eq; [|reflexivity].
  unfold unwrap_result. rewrite (load_path_same p fs1 fs2 paths F fuel c s (A c eq_refl) (conj W P)). reflexivity.
Qed.

(** ** Examples *)

(** A disk, and two with more files: one that is hidden by a file for the same name in a directory before, and
    files in a directory that is not searched or with another ending. *)
Definition plain_files : file_system := fun d f =>
  if is_file d f "/app" "Zoo.exe" then File zoo_image
  else if is_file d f "/lib" "Client.dll" then File client_image
  else Missing.
Definition hidden_files : file_system := fun d f => if is_file d f "/lib" "Zoo.dll" then Unreadable else plain_files d f.
Definition other_files : file_system := fun d f =>
  if is_file d f "/home" "Zoo.dll" then File lab_image else if is_file d f "/app" "Zoo.txt" then Unreadable else plain_files d f.

Lemma is_file_inv d f x y : is_file d f x y = true -> d = bytes_of_string x /\ f = bytes_of_string y.
Proof. unfold is_file. intro E. apply andb_true_iff in E as [A B]. apply bytes_eqb_spec in A, B. auto. Qed.
Lemma exe_dll (n m : name) : n ++ bytes_of_string ".exe" <> m ++ bytes_of_string ".dll".
Proof.
  intro E. apply (f_equal (fun l => last l x00)) in E. change (bytes_of_string ".dll") with ([x2e; x64; x6c] ++ [x6c]) in E.
  change (bytes_of_string ".exe") with ([x2e; x65; x78] ++ [x65]) in E. rewrite !app_assoc, !last_last in E. discriminate.
Qed.
Example C96_hidden_example :
  (forall n c, In c (candidates demo_paths n) -> plain_files (fst c) (snd c) = hidden_files (fst c) (snd c) \/
     exists pre post b, candidates demo_paths n = pre ++ c :: post /\ In b pre /\
       plain_files (fst b) (snd b) <> Missing /\ hidden_files (fst b) (snd b) <> Missing) /\
  (forall n, NoDup (candidates demo_paths n)) /\
  plain_files (text_of "/lib") (text_of "Zoo.dll") = Missing /\ hidden_files (text_of "/lib") (text_of "Zoo.dll") = Unreadable.
Proof.
  split; [|split; [|split; reflexivity]].
  - intros n c I. unfold hidden_files at 1. destruct (is_file (fst c) (snd c) "/lib" "Zoo.dll") eqn:B; [|left; reflexivity]. right.
    apply is_file_inv in B as [B1 B2]. change (bytes_of_string "Zoo.dll") with (text_of "Zoo" ++ bytes_of_string ".dll") in B2.
    destruct I as [<-|[<-|[<-|[<-|[]]]]]; cbn [fst snd] in B1, B2.
    + discriminate B1.
    + discriminate B1.
    + apply app_inv_tail in B2. subst n. exists [(text_of "/app", text_of "Zoo.dll"); (text_of "/app", text_of "Zoo.exe")], [(text_of "/lib", text_of "Zoo.exe")],
        (text_of "/app", text_of "Zoo.exe"). split; [reflexivity|]. split; [right; now left|]. split; vm_compute; discriminate.
    + destruct (exe_dll _ _ B2).
  - intro n. pose proof (exe_dll n n) as X. assert (Y : bytes_of_string "/app" <> bytes_of_string "/lib") by (vm_compute; discriminate).
    unfold candidates, demo_paths. cbn [flat_map app]. repeat constructor; cbn [In]; intuition congruence.
Qed.
Lemma plain_hidden : same_finds plain_files hidden_files demo_paths.
Proof. destruct C96_hidden_example as (A & B & _). now apply C96_hidden. Qed.
Example C96_elsewhere_example :
  (forall d n, In d demo_paths -> plain_files d (n ++ bytes_of_string ".dll") = other_files d (n ++ bytes_of_string ".dll") /\
                                  plain_files d (n ++ bytes_of_string ".exe") = other_files d (n ++ bytes_of_string ".exe")) /\
  plain_files (text_of "/app") (text_of "Zoo.txt") = Missing /\ other_files (text_of "/app") (text_of "Zoo.txt") = Unreadable.
Proof.
  split; [|split; reflexivity].
  assert (H : forall d f, In d demo_paths -> (exists n, f = n ++ bytes_of_string ".dll" \/ f = n ++ bytes_of_string ".exe") -> plain_files d f = other_files d f).
  { intros d f I (n & E). unfold other_files at 1. destruct (is_file d f "/home" "Zoo.dll") eqn:B1.
    { apply is_file_inv in B1 as [-> _]. destruct I as [I|[I|[]]]; discriminate I. }
    destruct (is_file d f "/app" "Zoo.txt") eqn:B2; [|reflexivity]. apply is_file_inv in B2 as [_ ->].
    exfalso.
    change (bytes_of_string ".dll") with ([x2e; x64; x6c] ++ [x6c]) in E. change (bytes_of_string ".exe") with ([x2e; x65; x78] ++ [x65]) in E.
    destruct E as [E|E]; apply (f_equal (fun l => last l x00)) in E; rewrite app_assoc, last_last in E; vm_compute in E; discriminate E. }
  intros d n I. split; apply H; eauto.
Qed.

Lemma plain_history p : history p plain_files demo_paths demo_disk.
Proof. exists 10%nat, system_runtime, system_console, demo_disk. split; [destruct p; vm_compute; reflexivity|apply later_now]. Qed.
Example C96_loads_example p : history p plain_files demo_paths demo_disk /\ same_finds plain_files hidden_files demo_paths /\
  exists s, load_assembly 10 p plain_files (text_of "Client") demo_disk = Ok 3%nat s.
Proof. split; [apply plain_history|]. split; [apply plain_hidden|]. eexists. destruct p; vm_compute; reflexivity. Qed.
Example C96_from_path_example p : history p plain_files demo_paths demo_disk /\ same_finds plain_files hidden_files demo_paths /\
  plain_files (text_of "/lib") (text_of "Client.dll") = hidden_files (text_of "/lib") (text_of "Client.dll") /\
  exists s, load_path 10 p plain_files (text_of "/lib", text_of "Client.dll") demo_disk = Ok 3%nat s.
Proof. split; [apply plain_history|]. split; [apply plain_hidden|]. split; [reflexivity|]. eexists. destruct p; vm_compute; reflexivity. Qed.
Example C96_start_example p : same_finds plain_files hidden_files demo_paths /\
  new_runtime 10 p plain_files demo_paths system_runtime system_console = Ok tt demo_disk.
Proof. split; [apply plain_hidden|]. destruct p; vm_compute; reflexivity. Qed.
(** What the file holds makes a difference where it is found: the hypothesis is needed. *)
Definition swapped_files : file_system := fun d f => if is_file d f "/app" "Zoo.dll" then Unreadable else plain_files d f.
Example C96_needed_example p : exists s s', load_assembly 10 p plain_files (text_of "Client") demo_disk = Ok 3%nat s /\
  load_assembly 10 p swapped_files (text_of "Client") demo_disk = Err "cannot read file" s'.
Proof. eexists. eexists. split; destruct p; vm_compute; reflexivity. Qed.
Example C96_no_disk_example p : read_metadata p client_image tt = Ok client_md tt /\ references_loaded demo_zoo client_md /\
  load_data 10 p no_files client_image demo_zoo = Ok 3%nat demo_client.
Proof.
  split; [destruct p; vm_compute; reflexivity|]. split; [|apply demo_client_loaded].
  intros row n [<-|[<-|[]]] T; apply string_at_text in T; vm_compute in T; injection T as <-; apply loaded_iff; vm_compute; reflexivity.
Qed.
Definition app_disk (hidden : bool) : file_system := fun d f =>
  if is_file d f "/run" "App.dll" then File hello_image else (if hidden then hidden_files else plain_files) d f.
Example C96_program_example p : same_finds (app_disk false) (app_disk true) demo_paths /\
  app_disk false (text_of "/run") (text_of "App.dll") = app_disk true (text_of "/run") (text_of "App.dll") /\
  exists s, test_program 100 p (app_disk false) demo_paths system_runtime system_console (Some (text_of "/run", text_of "App.dll")) = Ok RVoid s /\ c_output s = [104; 105].
Proof.
  split; [|split; [reflexivity|]].
  2:{ destruct p; eexists; (split; [vm_compute; reflexivity|reflexivity]). }
  assert (Q : forall b n c e, found (app_disk b) demo_paths n c e <-> found (if b then hidden_files else plain_files) demo_paths n c e).
  { intros b n c e. apply (C96_elsewhere (app_disk b) (if b then hidden_files else plain_files) demo_paths).
    intros d m I. unfold app_disk. assert (N : forall f, is_file d f "/run" "App.dll" = false).
    { intro f. destruct (is_file d f "/run" "App.dll") eqn:B; [|reflexivity]. apply is_file_inv in B as [-> _]. destruct I as [I|[I|[]]]; discriminate I. }
    now rewrite !N. }
  intros n c e. rewrite (Q false), (Q true). apply plain_hidden.
Qed.

Print Assumptions C96_loads.
Print Assumptions C96_from_path.
Print Assumptions C96_start.
Print Assumptions C96_elsewhere.
Print Assumptions C96_hidden.
Print Assumptions C96_no_disk.
Print Assumptions C96_program.
