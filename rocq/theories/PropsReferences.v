(** C95: loads and the names under which assemblies are loaded. *)
From Coq Require Import NArith Lia String List Bool.
From Coq.Strings Require Import Byte.
From Verif Require Import Base BaseFacts Metadata Tables Runtime Loader SpecRuntime SpecBody SpecLoader SpecHistory SpecLoadMessages
  HistoryProofs BodyProofs RuntimeInv InterpInv LayoutFacts LoaderRun LoadMessageFacts KnownFacts DemoImages DemoStates ZooImages ZooStates PropsLoader PropsLoadMessages.
Import ListNotations.
Open Scope N_scope.

(** An image that is loaded gives an assembly that has the name that the image has for it. *)
Theorem C95_named p fs fuel data s a s' : load_data fuel p fs data s = Ok a s' ->
  exists md n ai, image_of p data md n /\ In a (c_assemblies s') /\ nth_error (c_arena s') a = Some (Some ai) /\ a_name ai = n.
Proof.
  destruct fuel as [|f]; [discriminate|]. intro E. destruct (load_phases _ _ _ _ _ _ _ E) as (md & n & s1 & I & _ & _ & L & ai & X & N).
  exists md, n, ai. auto.
Qed.

(** By name: the file that is found for the name is loaded, under the name that its image has. *)
Theorem C95_named_by_name p fs fuel rn s a s' : load_assembly fuel p fs rn s = Ok a s' ->
  exists c x md n ai, first_there (fun c => fs (fst c) (snd c) <> Missing) (candidates (c_paths s) rn) c /\ fs (fst c) (snd c) = File x /\
    image_of p x md n /\ In a (c_assemblies s') /\ nth_error (c_arena s') a = Some (Some ai) /\ a_name ai = n.
Proof.
  rewrite load_by_name. pose proof (resolve_name_spec fs rn (c_paths s)) as R. destruct (resolve_assembly_name fs (c_paths s) rn) as [c|]; [|discriminate].
  destruct (fs (fst c) (snd c)) as [| |x] eqn:F; try discriminate. intro E. destruct (C95_named _ _ _ _ _ _ _ E) as (md & n & ai & X).
  exists c, x, md, n, ai. auto.
Qed.

(** What is loaded stays loaded under its name, whatever is loaded after it, and also if this fails. *)
Theorem C95_stays p fs fuel data n s : loaded_as s n ->
  match load_data fuel p fs data s with Ok _ s' | Err _ s' => loaded_as s' n | _ => True end.
Proof. intro H. apply (after_loads (load_data fuel p fs data) n s); [intros; now apply load_data_knows|exact H]. Qed.
Theorem C95_stays_by_name p fs fuel rn n s : loaded_as s n ->
  match load_assembly fuel p fs rn s with Ok _ s' | Err _ s' => loaded_as s' n | _ => True end.
Proof. intro H. apply (after_loads (load_assembly fuel p fs rn) n s); [intros; now apply load_assembly_knows|exact H]. Qed.

(** The same for everything that can happen to the runtime. *)
Theorem C95_stays_later p fs paths n s s' : history p fs paths s -> later p fs s s' -> loaded_as s n -> loaded_as s' n.
Proof.
  intros H L (a & ai & I & E & N). destruct (history_ok _ _ _ _ H) as (W & _). destruct (later_ok _ _ _ _ L W) as [_ G].
  destruct (gr_loaded _ _ G) as [l El]. destruct (gr_arena _ _ G) as [k Ek]. exists a, ai. rewrite El, Ek.
  split; [apply in_or_app; auto|]. split; [|exact N]. rewrite nth_error_app1; [exact E|]. apply nth_error_Some. congruence.
Qed.

(** In particular the two assemblies with which the runtime is started are loaded at all times. *)
Theorem C95_system p fs paths fuel rt con s0 s : new_runtime fuel p fs paths rt con = Ok tt s0 -> later p fs s0 s ->
  forall md n, image_of p rt md n \/ image_of p con md n -> loaded_as s n.
Proof.
  intros E L md n I.
  assert (H : history p fs paths s0) by (exists fuel, rt, con, s0; split; [exact E|apply later_now]).
  eapply C95_stays_later; [exact H|exact L|]. clear L H. unfold new_runtime in E.
  apply bind_inv_ok in E as (a1 & s1 & E1 & E). apply bind_inv_ok in E as (a2 & s2 & E2 & E).
  assert (X : loaded_as s2 n).
  { assert (Q : forall d f a x y, load_data f p fs d x = Ok a y -> image_of p d md n -> loaded_as y n).
    { intros d f a x y E3 [Im (row & R & T)]. destruct (C95_named _ _ _ _ _ _ _ E3) as (md' & n' & ai & [Im' (row' & R' & T')] & Ia & Ea & N).
      assert (md' = md) as -> by congruence. assert (row' = row) as -> by (destruct R, R'; congruence).
      assert (n' = n) as <- by (apply string_at_text in T, T'; congruence). exists a, ai. auto. }
    destruct I as [I|I]; [|eauto]. pose proof (C95_stays p fs fuel con n s1 (Q _ _ _ _ _ E1 I)) as Z. now rewrite E2 in Z. }
  assert (G : forall k x t y, named k x = Ok t y -> y = x).
  { intros k x t y Z. pose proof (pure_named k x) as P. rewrite Z in P. exact P. }
  do 11 (let t := fresh "t" in let s' := fresh "s'" in let Ht := fresh "Ht" in
    apply bind_inv_ok in E as (t & s' & Ht & E); apply G in Ht; subst s').
  cbn in E. injection E as <-. exact X.
Qed.

(** The claim in full: everything that the image refers to is loaded under the name of the reference once
    the image is loaded. *)
Definition references_claim (p : profile) (fs : file_system) : Prop := forall paths fuel data s a s' md, history p fs paths s ->
  load_data fuel p fs data s = Ok a s' -> read_metadata p data tt = Ok md tt -> references_loaded s' md.

Lemma obtained_references p fs paths f md rows : forall s s1, obtained p fs f md rows s s1 -> history p fs paths s ->
  forall r rn, In r rows -> heap_text md (ar_name r) rn -> loaded_as s1 rn \/
    (~ loaded_as s rn /\ exists c x md' n', first_there (fun c => fs (fst c) (snd c) <> Missing) (candidates paths rn) c /\
       fs (fst c) (snd c) = File x /\ image_of p x md' n' /\ n' <> rn /\ loaded_as s1 n').
Proof.
  induction 1 as [|r rows rn s s2 T Q O IH|r rows rn s a s1 s2 T Q La O IH]; intros Hh r' rn' I T'; [destruct I|..].
  - destruct I as [<-|I]; [|eauto]. assert (rn' = rn) as -> by (apply string_at_text in T, T'; congruence). left.
    destruct (loaded_known _ _ Q) as (b & Ib & X). eapply known_loaded; [|exact Ib]. eapply obtained_knows; eauto.
  - pose proof (history_load _ _ _ _ _ _ _ _ Hh La) as H1. destruct (history_ok _ _ _ _ Hh) as (_ & Pa & _).
    assert (P1 : forall n, loaded_as s n -> loaded_as s1 n).
    { intros n L. pose proof (C95_stays_by_name p fs f rn n s L) as X. now rewrite La in X. }
    assert (P2 : forall n, loaded_as s1 n -> loaded_as s2 n).
    { intros n L. destruct (loaded_known _ _ L) as (b & Ib & X). eapply known_loaded; [|exact Ib]. eapply obtained_knows; eauto. }
    pose proof La as La'. rewrite load_by_name in La'. pose proof (resolve_name_spec fs rn (c_paths s)) as R.
    destruct (resolve_assembly_name fs (c_paths s) rn) as [c|]; [|discriminate]. destruct (fs (fst c) (snd c)) as [| |x] eqn:F; try discriminate.
    destruct (C95_named _ _ _ _ _ _ _ La') as (md' & n' & ai & Im & Ia & Ea & N).
    assert (L1 : loaded_as s1 n') by (exists a, ai; auto).
    destruct I as [<-|I].
    + assert (rn' = rn) as -> by (apply string_at_text in T, T'; congruence). destruct (bytes_eqb n' rn) eqn:B.
      * apply bytes_eqb_spec in B. left. apply P2. rewrite <- B. exact L1.
      * right. split; [exact Q|]. exists c, x, md', n'. split; [rewrite <- Pa; exact R|]. split; [exact F|]. split; [exact Im|]. split; [|auto].
        intro Y. rewrite Y, bytes_eqb_refl in B. discriminate.
    + destruct (IH H1 _ _ I T') as [X|(X & c' & y & md2 & n2 & Y)]; [left; exact X|right]. split; [intro Z; apply X; auto|].
      exists c', y, md2, n2. exact Y.
Qed.

(** After a load, each reference is to an assembly that is loaded under the name of the reference, or there
    was none and the file that is found for it holds an assembly of another name, under which it is loaded. *)
Theorem C95_references_partial p fs paths fuel data s a s' md row rn : history p fs paths s ->
  load_data fuel p fs data s = Ok a s' -> read_metadata p data tt = Ok md tt ->
  In row (tb_assembly_ref (m_tables md)) -> heap_text md (ar_name row) rn ->
  loaded_as s' rn \/
  (~ loaded_as s rn /\ exists c x md' n', first_there (fun c => fs (fst c) (snd c) <> Missing) (candidates paths rn) c /\
     fs (fst c) (snd c) = File x /\ image_of p x md' n' /\ n' <> rn /\ loaded_as s' n').
Proof.
  intros H E Em I T. destruct fuel as [|f]; [discriminate|].
  destruct (load_phases _ _ _ _ _ _ _ E) as (md1 & n & s1 & Im & O & K & _). assert (md1 = md) as -> by (destruct Im as [Im _]; congruence).
  assert (P2 : forall n, loaded_as s1 n -> loaded_as s' n).
  { intros m L. destruct (loaded_known _ _ L) as (b & Ib & X). eapply known_loaded; [|exact Ib]. apply K. exact X. }
  destruct (obtained_references _ _ _ _ _ _ _ _ O H _ _ I T) as [X|(X & c & x & md' & n' & A & B & C & D & L)]; [left; auto|right].
  split; [exact X|]. exists c, x, md', n'. auto 6.
Qed.

(** So the claim holds where the files have the names of the assemblies that they hold. *)
Theorem C95_references_honest_partial p fs paths fuel data s a s' md : history p fs paths s ->
  (forall rn c x md' n', In c (candidates paths rn) -> fs (fst c) (snd c) = File x -> image_of p x md' n' -> n' = rn) ->
  load_data fuel p fs data s = Ok a s' -> read_metadata p data tt = Ok md tt -> references_loaded s' md.
Proof.
  intros H F E Em row rn I T.
  destruct (C95_references_partial _ _ _ _ _ _ _ _ _ _ _ H E Em I T) as [X|(_ & c & x & md' & n' & (pre & post & A & _) & B & C & D & _)]; [exact X|].
  destruct D. eapply F; eauto. rewrite A. apply in_elt.
Qed.

(** If all that an image refers to is loaded, its load adds one assembly to the list and nothing else. *)
Theorem C95_one p fs paths fuel data s a s' md : history p fs paths s -> read_metadata p data tt = Ok md tt -> references_loaded s md ->
  load_data fuel p fs data s = Ok a s' -> c_assemblies s' = c_assemblies s ++ [a] /\ ~ In a (c_assemblies s).
Proof.
  intros H Em RL E. destruct fuel as [|f]; [discriminate|]. destruct (data_image _ _ _ _ _ _ _ E) as (md1 & n & I).
  assert (md1 = md) as -> by (destruct I as [I _]; congruence).
  rewrite (load_step _ _ _ _ _ _ _ I) in E. fold (one_reference p fs f md) in E.
  apply bind_inv_ok in E as ([] & s1 & E1 & E). apply iter_obtained in E1.
  assert (s1 = s) as ->.
  { assert (Q : forall rows s s1, obtained p fs f md rows s s1 -> (forall r rn, In r rows -> heap_text md (ar_name r) rn -> loaded_as s rn) -> s1 = s).
    { clear. induction 1 as [|r rows rn s s2 T Q O IH|r rows rn s a s1 s2 T Q La O IH]; intro R; [reflexivity|..].
      - apply IH. intros r' rn' X. apply R. now right.
      - destruct Q. apply (R r rn); [now left|exact T]. }
    apply (Q _ _ _ E1). exact RL. }
  destruct (history_ok _ _ _ _ H) as (W & _).
  apply bind_inv_ok in E as (ms & s2 & E2 & E). pose proof (load_method_refs_pres p md (tb_member_ref (m_tables md)) s W) as P2.
  rewrite E2 in P2. destruct P2 as (_ & _ & -> & Vm).
  apply bind_inv_ok in E as (ts & s2 & E3 & E). pose proof (load_type_refs_pres p md s W) as P3. rewrite E3 in P3. destruct P3 as (_ & _ & -> & Vt).
  unfold bind at 1 in E. unfold new_assembly in E. set (ai := mkAssembly n _ _ _ _ _ _ _) in E. set (s2 := set_arena s _) in E.
  destruct (new_assembly_ready p s n (m_user_strings md) ms ts W Vm Vt) as (W2 & A2 & L2). fold ai in W2, A2, L2. fold s2 in W2, A2, L2.
  assert (Al : alive s2 (List.length (c_arena s))) by (exists ai; exact A2).
  pose proof (load_contents_ends p md (List.length (c_types s)) (List.length (c_arena s)) f s2 L2 Al W2) as R.
  unfold drop_on_error in E. destruct (load_contents f p md (List.length (c_arena s)) s2) as [[] s3|? ?|?|?|]; try discriminate. injection E as <- <-.
  destruct R as (_ & s4 & R4 & ->). split.
  - cbn [c_assemblies set_assemblies]. rewrite (wi_loaded _ _ _ _ R4). reflexivity.
  - intro X. pose proof (SpecRuntime.loaded_ok _ _ W) as F. rewrite Forall_forall in F. destruct (F _ X) as [bi Hb].
    assert (Y : (List.length (c_arena s) < List.length (c_arena s))%nat) by (apply nth_error_Some; congruence). lia.
Qed.

(** ** The claim in full is false *)

(** The client with one byte changed, such that it refers to an assembly [Helper], on a disk where the file
    of this name holds the assembly [Zoo]. *)
Definition helper_image : list byte := Eval vm_compute in firstn 718 client_image ++ x0f :: skipn 719 client_image.
Definition helper_files : file_system := fun d f =>
  if is_file d f "/app" "Helper.dll" then File zoo_image else Missing.
Definition helper_md : metadata := Eval vm_compute in
  match read_metadata Debug helper_image tt with Ok md _ => md | _ => client_md end.
Definition helper_vm : vm := Eval vm_compute in state_of (load_data 10 Debug helper_files helper_image demo_disk).
Lemma helper_history p : history p helper_files demo_paths demo_disk.
Proof. exists 10%nat, system_runtime, system_console, demo_disk. split; [destruct p; vm_compute; reflexivity|apply later_now]. Qed.
Lemma helper_loaded p : load_data 10 p helper_files helper_image demo_disk = Ok 3%nat helper_vm.
Proof. destruct p; vm_compute; reflexivity. Qed.
Lemma helper_read p : read_metadata p helper_image tt = Ok helper_md tt.
Proof. destruct p; vm_compute; reflexivity. Qed.
Theorem C95_references_refuted p : exists fs, ~ references_claim p fs.
Proof.
  exists helper_files. intro C. specialize (C _ _ _ _ _ _ _ (helper_history p) (helper_loaded p) (helper_read p)).
  assert (X : ~ loaded_as helper_vm (text_of "Helper")) by (apply loaded_not; vm_compute; reflexivity).
  apply X. eapply C; [right; left; reflexivity|]. text_here.
Qed.

(** ** Examples *)

(** The same disk, where the file has the name of the assembly: the load loads both. *)
Definition named_files : file_system := fun d f =>
  if is_file d f "/app" "Zoo.exe" then File zoo_image else Missing.
Definition named_vm : vm := Eval vm_compute in state_of (load_data 10 Debug named_files client_image demo_disk).
Lemma named_history p : history p named_files demo_paths demo_disk.
Proof. exists 10%nat, system_runtime, system_console, demo_disk. split; [destruct p; vm_compute; reflexivity|apply later_now]. Qed.
Example C95_references_partial_example p : history p helper_files demo_paths demo_disk /\
  load_data 10 p helper_files helper_image demo_disk = Ok 3%nat helper_vm /\ read_metadata p helper_image tt = Ok helper_md tt /\
  (exists row, In row (tb_assembly_ref (m_tables helper_md)) /\ heap_text helper_md (ar_name row) (text_of "Helper")) /\
  ~ loaded_as helper_vm (text_of "Helper") /\ loaded_as helper_vm (text_of "Zoo").
Proof.
  split; [apply helper_history|]. split; [apply helper_loaded|]. split; [apply helper_read|]. split.
  { eexists. split; [right; left; reflexivity|]. text_here. }
  split; [apply loaded_not|apply loaded_iff]; vm_compute; reflexivity.
Qed.
Example C95_references_honest_example p : history p named_files demo_paths demo_disk /\
  (forall rn c x md' n', In c (candidates demo_paths rn) -> named_files (fst c) (snd c) = File x -> image_of p x md' n' -> n' = rn) /\
  load_data 10 p named_files client_image demo_disk = Ok 3%nat named_vm /\ read_metadata p client_image tt = Ok client_md tt /\
  ~ loaded_as demo_disk (text_of "Zoo") /\ loaded_as named_vm (text_of "Zoo").
Proof.
  split; [apply named_history|]. split.
  { intros rn c x md' n' I F Im. unfold named_files, is_file in F.
    destruct (bytes_eqb (fst c) _) eqn:F1; [|discriminate]. destruct (bytes_eqb (snd c) (bytes_of_string "Zoo.exe")) eqn:F2; [|discriminate].
    apply bytes_eqb_spec in F2. assert (x = zoo_image) as -> by (cbn [andb] in F; congruence).
    assert (rn = text_of "Zoo") as ->.
    { apply in_flat_map in I as (d & _ & [<-|[<-|[]]]); cbn [snd] in F2.
      - apply (f_equal (fun l => last l x00)) in F2. change (bytes_of_string ".dll") with ([x2e; x64; x6c] ++ [x6c]) in F2.
        rewrite app_assoc, last_last in F2. vm_compute in F2. discriminate.
      - change (bytes_of_string "Zoo.exe") with (text_of "Zoo" ++ bytes_of_string ".exe") in F2. now apply app_inv_tail in F2. }
    destruct Im as (Em & row & [_ R] & T).
    assert (Z : read_metadata p zoo_image tt = Ok zoo_md tt) by (destruct p; vm_compute; reflexivity).
    assert (md' = zoo_md) as -> by congruence. assert (X : nth_error (tb_assembly (m_tables zoo_md)) (N.to_nat (1 - 1)) = Some row) by exact R.
    vm_compute in X. injection X as <-. apply string_at_text in T. vm_compute in T. injection T as <-. reflexivity. }
  split; [destruct p; vm_compute; reflexivity|]. split; [destruct p; vm_compute; reflexivity|].
  split; [apply loaded_not|apply loaded_iff]; vm_compute; reflexivity.
Qed.

Example C95_named_by_name_example p : exists s', load_assembly 10 p helper_files (text_of "Helper") demo_disk = Ok 2%nat s' /\
  loaded_as s' (text_of "Zoo").
Proof. destruct p; eexists; (split; [vm_compute; reflexivity|apply loaded_iff; vm_compute; reflexivity]). Qed.
Example C95_stays_example p : loaded_as demo_disk (text_of "System.Runtime") /\
  load_data 10 p named_files client_image demo_disk = Ok 3%nat named_vm /\
  exists s', load_data 10 p named_files bun_image demo_disk = Err "Unable to find method" s'.
Proof.
  split; [apply loaded_iff; vm_compute; reflexivity|]. split; [|eexists]; destruct p; vm_compute; reflexivity.
Qed.
Example C95_stays_by_name_example p : loaded_as demo_disk (text_of "System.Runtime") /\
  exists s', load_assembly 10 p named_files (text_of "Zoo") demo_disk = Ok 2%nat s'.
Proof. split; [apply loaded_iff; vm_compute; reflexivity|]. eexists. destruct p; vm_compute; reflexivity. Qed.
Example C95_stays_later_example p : history p named_files demo_paths demo_disk /\ later p named_files demo_disk named_vm /\
  loaded_as demo_disk (text_of "System.Runtime").
Proof.
  split; [apply named_history|]. split; [|apply loaded_iff; vm_compute; reflexivity].
  eapply later_then; [apply later_now|]. apply (ev_load p named_files 10 client_image 3%nat). destruct p; vm_compute; reflexivity.
Qed.
(** The client is loaded once more. *)
Example C95_one_example p : history p named_files demo_paths named_vm /\ read_metadata p client_image tt = Ok client_md tt /\
  references_loaded named_vm client_md /\ exists s', load_data 10 p named_files client_image named_vm = Ok 4%nat s'.
Proof.
  destruct (C95_references_honest_example p) as (H & F & E & R & _). split; [|split; [exact R|split]].
  - destruct H as (fuel & rt & con & s0 & H & L). exists fuel, rt, con, s0. split; [exact H|]. eapply later_then; [exact L|]. eapply ev_load; exact E.
  - eapply C95_references_honest_partial; eauto.
  - eexists. destruct p; vm_compute; reflexivity.
Qed.
Example C95_system_example p : new_runtime 10 p demo_files demo_paths system_runtime system_console = Ok tt demo_disk /\
  (exists s, load_assembly 10 p demo_files (text_of "Client") demo_disk = Ok 3%nat s /\ later p demo_files demo_disk s) /\
  exists md, image_of p system_console md (text_of "System.Console").
Proof.
  split; [apply demo_disk_started|]. split.
  { exists demo_disk_client. split; [apply demo_disk_client_loaded|]. eapply later_then; [apply later_now|]. eapply ev_load_name. apply demo_disk_client_loaded. }
  destruct (read_metadata p system_console tt) as [md []|? ?|?|?|] eqn:E; [|destruct p; vm_compute in E; discriminate..].
  exists md. split; [exact E|]. eexists. assert (E' := E).
  destruct p; vm_compute in E'; injection E' as <-; (split; [split; [vm_compute; discriminate|vm_compute; reflexivity]|]); text_here.
Qed.
Example C95_named_example p : load_data 10 p helper_files helper_image demo_disk = Ok 3%nat helper_vm.
Proof. apply helper_loaded. Qed.

Print Assumptions C95_named.
Print Assumptions C95_stays.
Print Assumptions C95_stays_by_name.
Print Assumptions C95_stays_later.
Print Assumptions C95_references_partial.
Print Assumptions C95_references_honest_partial.
Print Assumptions C95_references_refuted.
Print Assumptions C95_one.
Print Assumptions C95_system.
Print Assumptions C95_named_by_name.
