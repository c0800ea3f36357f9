(** C71: loads that succeed. *)
From Coq Require Import NArith ZArith String List Bool Lia Arith.
From Coq.Strings Require Import Byte.
From Verif Require Import Base BaseFacts BinaryReader ParseSpec ReaderFacts Attributes Tables TablesProofs Blob BlobProofs Metadata
  Runtime Loader Value Gc Interp Host SpecBytes SpecBlob SpecPe Pe SpecUtf SpecMetadata SpecRuntime
  RuntimeInv SpecHistory HistoryProofs InterpInv SpecBody BodyProofs TypeFacts LayoutFacts SpecStack SpecHeap SpecLang SpecCalls SpecTypes SpecLoader
  LoaderFacts LoaderRun MemberFacts TraceFacts FuelFacts SpecImage DemoImages DemoFacts DemoStates PropsLoader PropsCalls PropsImage
  SpecLoad LoadFacts LoadRun LoadLoops.
Import ListNotations.
Open Scope N_scope.

Lemma load_knows p fs fuel data s a s' : each knows s -> load_data fuel p fs data s = Ok a s' -> each knows s'.
Proof.
  intros K E. assert (L : later p fs s s') by (eapply later_then; [apply later_now|eapply ev_load; exact E]). revert L K. apply later_each.
  - intros t ti (A & B & C & D & F). split; rewrite ?A, ?B, ?D, ?F; intros; try contradiction; apply last_called_none.
  - intros t ti b []. split; auto.
  - intros t ti b []. split; auto.
  - intros t ti b []. split; auto.
  - intros t ti f F []. split; cbn [ti_fields ti_methods ti_field_map ti_method_map with_field]; auto.
    + intros g Hg. apply in_app_or in Hg as [Hg|[<-|[]]]; auto.
    + intro n. rewrite get_put. now apply last_called_snoc.
  - intros t ti f F []. split; cbn [ti_fields ti_methods ti_field_map ti_method_map with_method]; auto.
    + intros g Hg. apply in_app_or in Hg as [Hg|[<-|[]]]; auto.
    + intro n. rewrite get_put. now apply last_called_snoc.
Qed.
Lemma load_any p fs s top pl data md fts ks : consistent p s -> each knows s -> read_metadata p data tt = Ok md tt ->
  plan_ok top pl -> planned pl (c_types s) -> loadable p s md pl fts ks ->
  exists a s', (forall fuel, (S (top + top + 2) <= fuel)%nat -> load_data fuel p fs data s = Ok a s') /\ planned pl (c_types s') /\
    forall x, available s md x -> known s' x.
Proof.
  intros W K Em PO PL LD.
  destruct (load_data_fwd p fs top pl s data md fts ks (top + top + 2) W K Em (entry_point_read _ _ _ Em) PO PL LD (Nat.le_refl _)) as (s' & E & P & A).
  exists (List.length (c_arena s)), s'. split; [|auto]. intros fuel L.
  destruct (refines_load_data p fs _ _ data L s) as [X|X]; rewrite E in X; [discriminate|exact X].
Qed.

(** ** C71 *)

(** An image that is loadable is loaded, into any runtime whose types follow the plan, and they follow
    it afterwards. *)
Theorem C71_load p fs paths s top pl data md fts ks :
  history p fs paths s -> read_metadata p data tt = Ok md tt ->
  plan_ok top pl -> planned pl (c_types s) -> loadable p s md pl fts ks ->
  exists enough a s', (forall fuel, (enough <= fuel)%nat -> load_data fuel p fs data s = Ok a s') /\ planned pl (c_types s').
Proof.
  intros H Em PO PL LD.
  destruct (load_any p fs s top pl data md fts ks (proj1 (history_ok _ _ _ _ H)) (history_knows _ _ _ _ H) Em PO PL LD) as (a & s' & E & P & _).
  eauto 6.
Qed.

(** A runtime starts from two images if the first is loadable into an empty runtime, the second after
    the first, and one of them defines System.Object. *)
Theorem C71_start p fs paths top pl rt con mdr mdc ftr kr ftc kc :
  read_metadata p rt tt = Ok mdr tt -> read_metadata p con tt = Ok mdc tt -> plan_ok top pl ->
  loadable p (empty_vm paths) mdr pl ftr kr ->
  (forall fuel a s, load_data fuel p fs rt (empty_vm paths) = Ok a s -> loadable p s mdc pl ftc kc) ->
  (exists k, row_name mdr InTypeDef k (bytes_of_string "System.Object") \/ row_name mdc InTypeDef k (bytes_of_string "System.Object")) ->
  exists enough s, (forall fuel, (enough <= fuel)%nat -> new_runtime fuel p fs paths rt con = Ok tt s) /\ planned pl (c_types s).
Proof.
  intros Er Ec PO LR LC [ko Ho]. pose proof (empty_consistent p paths) as W0.
  assert (K0 : each knows (empty_vm paths)) by (intros t ti E; destruct t; discriminate).
  assert (P0 : planned pl (c_types (empty_vm paths))) by (split; cbn; contradiction).
  destruct (load_any p fs _ top pl rt mdr ftr kr W0 K0 Er PO P0 LR) as (a1 & s1 & E1 & P1 & A1).
  pose proof (E1 _ (Nat.le_refl _)) as X1. pose proof (LC _ _ _ X1) as L1.
  destruct (pres_run_ok _ _ _ _ _ _ _ (load_data_pres p fs _ rt _) W0 X1) as (W1 & _).
  destruct (load_any p fs s1 top pl con mdc ftc kc W1 (load_knows _ _ _ _ _ _ _ K0 X1) Ec PO P1 L1) as (a2 & s2 & E2 & P2 & A2).
  pose proof (E2 _ (Nat.le_refl _)) as X2.
  destruct (pres_run_ok _ _ _ _ _ _ _ (load_data_pres p fs _ con _) W1 X2) as (W2 & _).
  assert (N : forall x, x = "System.Object"%string \/ In x ("System.ValueType"%string :: map fst widths) -> exists t, named x s2 = Ok t s2).
  { intros x Hx. assert (K : known s2 (bytes_of_string x)).
    { apply A2. destruct Hx as [->|Hx]; [|exact (ld_core _ _ _ _ _ _ L1 x Hx)].
      destruct Ho as [Ho|Ho]; [left; apply A1|]; right; eauto. }
    destruct (known_latest p s2 _ W2 K) as (t & _ & G). exists t. unfold named. rewrite (bind_ok _ _ _ _ _ G). reflexivity. }
  assert (F : exists s, (sbyte <- named "System.SByte" ;;
   byte <- named "System.Byte" ;;
   short <- named "System.Int16" ;;
   ushort <- named "System.UInt16" ;;
   int <- named "System.Int32" ;;
   uint <- named "System.UInt32" ;;
   long <- named "System.Int64" ;;
   ulong <- named "System.UInt64" ;;
   float <- named "System.Single" ;;
   double <- named "System.Double" ;;
   object <- named "System.Object" ;;
   s <- get_state ;;
   put_state (set_primitives s (mkPrimitives sbyte byte short ushort int uint long ulong float double object))) s2 = Ok tt s /\ c_types s = c_types s2).
  { do 11 match goal with |- exists s, bind (named ?x) _ _ = _ /\ _ =>
      let t := fresh "t" in let T := fresh "T" in destruct (N x ltac:(cbn; tauto)) as [t T]; rewrite (bind_ok _ _ _ _ _ T); clear T end.
    eexists. split; reflexivity. }
  destruct F as (s & F & T). exists (S (top + top + 2)), s. split; [|now rewrite T]. intros fuel L. unfold new_runtime.
  rewrite (bind_ok _ _ _ _ _ (E1 fuel L)), (bind_ok _ _ _ _ _ (E2 fuel L)). exact F.
Qed.

(** With that, the test program on an image that holds a program and is loadable does what the function in
    the row before the entry point of the header does, with nothing assumed about what it runs into. *)
Theorem C70_from_images_partial p fs paths top pl rt con mdr mdc ftr kr ftc kc dir file data md fts kv P ks g f r :
  read_metadata p rt tt = Ok mdr tt -> read_metadata p con tt = Ok mdc tt -> plan_ok top pl ->
  loadable p (empty_vm paths) mdr pl ftr kr ->
  (forall fuel a s, load_data fuel p fs rt (empty_vm paths) = Ok a s -> loadable p s mdc pl ftc kc) ->
  (exists k, row_name mdr InTypeDef k (bytes_of_string "System.Object") \/ row_name mdc InTypeDef k (bytes_of_string "System.Object")) ->
  console_image mdc ->
  fs dir file = File data -> read_metadata p data tt = Ok md tt -> program_image md P ks ->
  (forall fuel s, new_runtime fuel p fs paths rt con = Ok tt s -> loadable p s md pl fts kv) ->
  (forall row n, In row (tb_assembly_ref (m_tables md)) -> heap_text md (ar_name row) n -> assembly_name mdr n \/ assembly_name mdc n) ->
  ch_entry_point (m_cli_header md) = 0x06000000 + r -> 1 <= r < 2 ^ 24 ->
  nth_error ks g = Some (r - 1) -> nth_error P g = Some f ->
  (forall o, does p P (SpecCalls.storage (N.of_nat (fn_locals f))) (outset f) (start [] (fn_locals f)) (fn_body f) o ->
     exists enough, forall fuel, (enough <= fuel)%nat -> seen o (test_program fuel p fs paths rt con (Some (dir, file)))) /\
  (forall fuel, test_program fuel p fs paths rt con (Some (dir, file)) <> NoFuel ->
     exists o, does p P (SpecCalls.storage (N.of_nat (fn_locals f))) (outset f) (start [] (fn_locals f)) (fn_body f) o /\
       seen o (test_program fuel p fs paths rt con (Some (dir, file)))).
Proof.
  intros Er Ec PO LR LC Ho Ci Ef Em I LD Rf Ep Br Ek EF.
  destruct (C71_start p fs paths top pl rt con mdr mdc ftr kr ftc kc Er Ec PO LR LC Ho) as (K & s & En & PL).
  pose proof (LD _ _ (En K (Nat.le_refl _))) as L.
  assert (H : history p fs paths s) by (exists K, rt, con, s; split; [exact (En K (Nat.le_refl _))|constructor]).
  destruct (C71_load p fs paths s top pl data md fts kv H Em PO PL L) as (K' & a & s1 & El & _).
  eapply C70_test_program_partial with (fuel0 := Nat.max K K') (s := s) (a := a) (s1 := s1); eauto.
  - exact (ld_addressable _ _ _ _ _ _ LR).
  - exact (ld_listed _ _ _ _ _ _ LR).
  - apply En. lia.
  - unfold load_path. cbn [fst snd]. rewrite Ef. apply El. lia.
Qed.

(** ** Examples *)

(** A plan for the example images.  Names that are not in the tables, among them those of vectors, have
    rank 2 and weight 64. *)
Fixpoint entry {A} (d : A) (l : list (string * A)) (n : name) : A :=
  match l with [] => d | (x, a) :: l => if bytes_eqb (bytes_of_string x) n then a else entry d l n end.
Definition demo_plan : plan := {|
  pl_rank := entry 2%nat [("System.Object", 0%nat); ("System.ValueType", 1%nat); ("System.Array", 1%nat); ("App.Named", 3%nat)]%string;
  pl_value := entry false (("System.ValueType"%string, true) :: ("System.Void"%string, true) :: map (fun w => (fst w, true)) widths);
  pl_weight := entry 64 (("System.Object"%string, 0) :: ("System.ValueType"%string, 0) :: ("System.Array"%string, 0) ::
    ("App.Point"%string, 16) :: ("App.Named"%string, 32) :: widths) |}.

Lemma entry_bound {A} (P : A -> Prop) d l n : P d -> Forall (fun e => P (snd e)) l -> P (entry d l n).
Proof. intros H F. induction F as [|[x a] l Ha F IH]; [exact H|]. cbn [entry]. destruct bytes_eqb; assumption. Qed.
Lemma entry_else {A} (d : A) l n : Forall (fun e => bytes_of_string (fst e) <> n) l -> entry d l n = d.
Proof.
  induction 1 as [|[x a] l Ha F IH]; [reflexivity|]. cbn [entry]. destruct (bytes_eqb (bytes_of_string x) n) eqn:E; [|exact IH].
  apply bytes_eqb_spec in E. contradiction.
Qed.
Lemma not_vector x n : last (bytes_of_string x) x00 <> x5d -> bytes_of_string x <> vector_of n.
Proof. intros H E. apply H. rewrite E. unfold vector_of. change (bytes_of_string "[]") with ([x5b] ++ [x5d]). rewrite app_assoc. apply last_last. Qed.
Lemma demo_plan_ok : plan_ok 3 demo_plan.
Proof.
  constructor.
  - intro n. apply (entry_bound (fun x => (x <= 3)%nat)); [lia|]. repeat constructor; cbn; lia.
  - intro n. apply (entry_bound (fun x => x < 2 ^ 64)); [reflexivity|]. repeat constructor; reflexivity.
  - intros x k I. repeat (destruct I as [[= <- <-]|I]; [vm_compute; discriminate|]). destruct I.
  - reflexivity.
  - reflexivity.
  - intro n. unfold demo_plan. cbn [pl_rank pl_weight].
    rewrite !(entry_else _ _ (vector_of n)) by (repeat constructor; apply not_vector; vm_compute; discriminate).
    split; [vm_compute; lia|vm_compute; discriminate].
Qed.

(** Checks by computation. *)
Definition full_name_at (md : metadata) (r : type_def_row) : option name :=
  match string_at md (td_name r), string_at md (td_namespace r) with Some n, Some ns => Some (qualified n ns) | _, _ => None end.
Lemma check_available s md n :
  existsb (fun t => bytes_eqb (ti_full_name t) n) (c_types s) ||
  existsb (fun r => match full_name_at md r with Some m => bytes_eqb m n | None => false end) (tb_type_def (m_tables md)) = true ->
  available s md n.
Proof.
  intro H. apply orb_prop in H as [H|H]; [left; now apply check_known|right].
  apply existsb_exists in H as (r & I & E). unfold full_name_at in E.
  destruct (string_at md (td_name r)) as [a|] eqn:E1; [|discriminate]. destruct (string_at md (td_namespace r)) as [b|] eqn:E2; [|discriminate].
  apply bytes_eqb_spec in E. subst n. apply In_nth_error in I as [k K]. exists (N.of_nat k + 1).
  eapply in_type_def; [lia| |apply string_at_inv; eassumption|apply string_at_inv; eassumption].
  rewrite N.add_sub, Nat2N.id. exact K.
Qed.
Lemma check_fields pl fn (l : list (bool * name)) :
  forallb (fun f : bool * name => fst f || negb (pl_value pl (snd f)) || existsb (fun w => bytes_eqb (bytes_of_string (fst w)) (snd f)) widths
    || (pl_rank pl (snd f) <? pl_rank pl fn)%nat) l = true ->
  forall m, In (false, m) l -> pl_value pl m = true -> primitive m \/ (pl_rank pl m < pl_rank pl fn)%nat.
Proof.
  intros H m I V. rewrite forallb_forall in H. specialize (H _ I). cbn [fst snd] in H. rewrite V in H. cbn [orb negb] in H.
  apply orb_prop in H as [H|H]; [left|right; now apply Nat.ltb_lt].
  apply existsb_exists in H as ([x k] & Hx & E). apply bytes_eqb_spec in E. exists x, k. split; [exact Hx|now symmetry].
Qed.

Lemma check_latest ts n t : match nth_error ts t with Some ti => bytes_eqb (ti_full_name ti) n | None => false end = true ->
  forallb (fun ti => negb (bytes_eqb (ti_full_name ti) n)) (skipn (S t) ts) = true -> latest ts n t.
Proof.
  intros H F. split.
  - destruct (nth_error ts t) as [ti|]; [|discriminate]. exists ti. split; [reflexivity|now apply bytes_eqb_spec].
  - intros j tj L E X. rewrite forallb_forall in F. assert (I : In tj (skipn (S t) ts)).
    { apply nth_error_In with (n := (j - S t)%nat). apply nth_lt in E as E'. rewrite <- (firstn_skipn (S t) ts) in E.
      rewrite nth_error_app2 in E by (rewrite firstn_length; lia). rewrite firstn_length_le in E by lia. exact E. }
    apply F in I. rewrite (proj2 (bytes_eqb_spec _ _) X) in I. discriminate.
Qed.
Ltac txt := eapply string_at_inv; vm_compute; reflexivity.
Ltac row_name_here := first
  [eapply in_type_def; [vm_compute; discriminate|vm_compute; reflexivity|txt|txt]
  |eapply in_type_ref; [vm_compute; discriminate|vm_compute; reflexivity|txt|txt]].
Ltac type_name_here := repeat eapply name_vector; first
  [eapply name_simple; reflexivity|eapply name_value; row_name_here|eapply name_class; row_name_here].
Ltac available_here := apply check_available; vm_compute; reflexivity.
Ltac usable_here := split; [cbn; auto; vm_compute; auto|eexists; split; [cbn [innermost]; type_name_here|available_here]].
Ltac usables_here := repeat (constructor; [usable_here|]); constructor.
Ltac each_row := let row := fresh "row" in let I := fresh "I" in intros row I; vm_compute in I;
  repeat (destruct I as [<-|I]; [|]); try destruct I.
Ltac core_here := let x := fresh "x" in let I := fresh "I" in intros x I; cbn in I;
  repeat (destruct I as [<-|I]; [available_here|]); destruct I.
Ltac type_start := first
  [eexists _, _, None; split; [txt|]; split; [txt|]; split; [reflexivity|]
  |eexists _, _, (Some _); split; [txt|]; split; [txt|]; split; [exists InTypeDef; eexists; split; [reflexivity|row_name_here]|]
  |eexists _, _, (Some _); split; [txt|]; split; [txt|]; split; [exists InTypeRef; eexists; split; [reflexivity|row_name_here]|]].
Ltac type_here := type_start; cbv zeta; split;
  [let x := fresh "x" in let I := fresh "I" in let E := fresh "E" in intros x I E; cbn in I;
   repeat (destruct I as [<-|I]; [vm_compute in E; first [discriminate E|reflexivity]|]); destruct I|];
  split; [let b := fresh "b" in let E := fresh "E" in intros b E; first [discriminate E|injection E as <-;
   split; [available_here|]; split; [vm_compute; lia|vm_compute; auto; discriminate]]|];
  split; [apply check_fields; vm_compute; reflexivity|];
  split; [intros _; vm_compute; discriminate|];
  split; [vm_compute; reflexivity|];
  match goal with |- Forall2 _ ?a ?b => let a' := eval vm_compute in a in let b' := eval vm_compute in b in change a with a'; change b with b' end.
Ltac signature_here sg := eexists; exists sg, 0; split; [txt|]; split; [repeat split; try (repeat constructor; fail); vm_compute; reflexivity|]; split; [reflexivity|];
  split; [blob_here|]; split; [usable_here|]; split; [usables_here|].
Ltac params_here := let i := fresh "i" in let L := fresh "L" in intros i L; cbn in L;
  repeat (destruct i as [|i]; [eexists _, _; split; [row_here|txt]|]); exfalso; lia.

Definition plain (this : bool) (r : sig_type) (l : list sig_type) : method_sig :=
  {| ms_has_this := this; ms_explicit := false; ms_is_vararg := false; ms_generic := None; ms_result := r; ms_args := l; ms_extra := [] |}.
Definition demo_rt : vm := Eval vm_compute in state_of (load_data 10 Debug no_files system_runtime (empty_vm [])).
Lemma demo_rt_loaded p fs : load_data 10 p fs system_runtime (empty_vm []) = Ok 0%nat demo_rt.
Proof. destruct p; vm_compute; reflexivity. Qed.
Lemma one_load p fs data s f a x g b y : load_data f p fs data s = Ok a x -> load_data g p fs data s = Ok b y -> x = y.
Proof.
  intros E F. destruct (Nat.le_ge_cases f g) as [L|L];
    (destruct (refines_load_data p fs _ _ data L s) as [X|X]; rewrite ?E, ?F in X; [discriminate|congruence]).
Qed.

Lemma runtime_loadable p : loadable p (empty_vm []) runtime_md demo_plan [] [0].
Proof.
  constructor.
  - addressable_here.
  - listed_here.
  - eexists _, _. split; [row_here|txt].
  - each_row.
  - each_row.
  - each_row.
  - core_here.
  - constructor.
  - reflexivity.
  - intros j row E. do 19 try (destruct j as [|j]; [injection E as <-; type_here; try apply Forall2_nil|]).
    2: destruct j; discriminate.
    constructor; [|constructor]. signature_here (plain true (TSimple PVoid) []).
    split; [params_here|]. split; [|reflexivity].
    apply by_code; try reflexivity. apply (loads_tiny _ _ _ [x2a]); [reflexivity|image_here].
  - each_row.
  - left. reflexivity.
  - intros _. vm_compute. reflexivity.
Qed.

Lemma console_loadable p : loadable p demo_rt console_md demo_plan [] [0].
Proof.
  constructor.
  - addressable_here.
  - listed_here.
  - eexists _, _. split; [row_here|txt].
  - each_row. eexists. split; [txt|]. exists 0%nat. eexists. split; [now left|]. split; [vm_compute; reflexivity|vm_compute; reflexivity].
  - each_row. eexists _, _. split; [txt|]. split; [txt|]. apply check_known. vm_compute. reflexivity.
  - each_row.
  - core_here.
  - constructor.
  - reflexivity.
  - intros j row E. do 2 try (destruct j as [|j]; [injection E as <-; type_here; try apply Forall2_nil|]).
    2: destruct j; discriminate.
    constructor; [|constructor]. signature_here (plain false (TSimple PVoid) [TSimple PString]).
    split; [params_here|]. split; [|reflexivity].
    eapply (by_runtime _ _ _ _ _ (plain false (TSimple PVoid) [TSimple PString]) ConsoleWrite); [reflexivity|repeat constructor; type_name_here| |type_name_here].
    repeat split.
  - each_row.
  - left. reflexivity.
  - intros _. vm_compute. reflexivity.
Qed.

Definition hello_fields : list (sig_type * name) :=
  [(TSimple PI4, bytes_of_string "System.Int32"); (TSimple PI8, bytes_of_string "System.Int64");
   (TSimple PString, bytes_of_string "System.String"); (TSzArray (TSimple PI4), bytes_of_string "System.Int32[]")].
Lemma hello_loadable p : loadable p demo_vm hello_md demo_plan hello_fields [0; 0; 0; 0; 0; 0].
Proof.
  constructor.
  - addressable_here.
  - listed_here.
  - eexists _, _. split; [row_here|txt].
  - each_row; (eexists; split; [txt|]).
    + exists 0%nat. eexists. split; [now left|]. split; [vm_compute; reflexivity|vm_compute; reflexivity].
    + exists 1%nat. eexists. split; [right; now left|]. split; [vm_compute; reflexivity|vm_compute; reflexivity].
  - each_row; (eexists _, _; split; [txt|]; split; [txt|]; apply check_known; vm_compute; reflexivity).
  - each_row; intros _.
    + eexists _, 20%nat, _, _, _. split; [eexists _, _, _; split; [row_here|]; split; [txt|]; split; [txt|reflexivity]|].
      split; [apply check_latest; vm_compute; reflexivity|]. split; [vm_compute; reflexivity|]. split; [txt|].
      exists [], []. split; [reflexivity|]. split; [vm_compute; reflexivity|]. intros y [].
    + eexists _, 1%nat, _, _, _. split; [eexists _, _, _; split; [row_here|]; split; [txt|]; split; [txt|reflexivity]|].
      split; [apply check_latest; vm_compute; reflexivity|]. split; [vm_compute; reflexivity|]. split; [txt|].
      exists [], []. split; [reflexivity|]. split; [vm_compute; reflexivity|]. intros y [].
  - core_here.
  - repeat (constructor; [split; [eexists; txt|]; split; [cbn [fst]; blob_here|]; split; [usable_here|cbn [fst snd]]|]); [..|constructor].
    all: try (apply name_simple; reflexivity). apply (name_vector _ _ (bytes_of_string "System.Int32")). apply name_simple. reflexivity.
  - reflexivity.
  - intros j row E. do 5 try (destruct j as [|j]; [injection E as <-; type_here; try apply Forall2_nil|]).
    3: destruct j; discriminate.
    + constructor; [|constructor]. signature_here (plain true (TSimple PVoid) []). split; [params_here|]. split; [|reflexivity].
      apply by_code; try reflexivity. apply (loads_tiny _ _ _ [x02; x28; x02; x00; x00; x0a; x2a]); [reflexivity|image_here].
    + repeat constructor.
      * signature_here (plain false (TSimple PI4) [TSimple PI4; TSimple PI4]). split; [params_here|]. split; [|reflexivity].
        apply by_code; try reflexivity. apply (loads_tiny _ _ _ [x02; x03; x58; x2a]); [reflexivity|image_here].
      * signature_here (plain false (TSimple PVoid) []). split; [params_here|]. split; [|reflexivity].
        apply by_code; try reflexivity. apply (loads_tiny _ _ _ [x72; x01; x00; x00; x70; x28; x01; x00; x00; x0a; x2a]); [reflexivity|image_here].
      * signature_here (plain false (TSimple PI4) [TSimple PI4]). split; [params_here|]. split; [|reflexivity].
        apply by_code; try reflexivity.
        apply (loads_fat _ _ _ true 2 0x11000001 [x16; x0a; x16; x0b; x2b; x08; x06; x07; x58; x0a; x07; x17; x58; x0b; x07; x02; x32; xf4; x06; x2a] [TSimple PI4; TSimple PI4]);
          try reflexivity; [image_here| |usables_here].
        eapply (some_locals _ 1); [lia|reflexivity|vm_compute; reflexivity|blob_here|reflexivity].
      * signature_here (plain false (TSimple PVoid) []). split; [params_here|]. split; [|reflexivity].
        apply by_code; try reflexivity.
        eapply (loads_clauses _ _ _ true 1 0 [x00; xde; x00; x26; xde; x00; x2a] [] false
          [{| eh_is := EhCatch; eh_try_offset := 0; eh_try_length := 3; eh_handler_offset := 3; eh_handler_length := 3; eh_operand := 0x01000003 |};
           {| eh_is := EhFinally; eh_try_offset := 0; eh_try_length := 3; eh_handler_offset := 3; eh_handler_length := 3; eh_operand := 0 |}] [x00]);
          try reflexivity; [| |constructor|split; reflexivity|apply small_section; [repeat constructor; reflexivity|reflexivity]|].
        -- image_here.
        -- constructor.
        -- intros e Ie Ke. destruct Ie as [<-|[<-|[]]]; [|discriminate Ke]. eexists. split; [apply (caught_ref _ 3); [reflexivity|row_name_here]|available_here].
      * signature_here (plain false (TSimple PI4) []). split; [params_here|]. split; [|reflexivity].
        apply by_code; try reflexivity.
        apply (loads_fat _ _ _ true 3 0x11000002 [x73; x01; x00; x00; x06; x0a; x06; x1d; x7d; x01; x00; x00; x04; x06; x7b; x01; x00; x00; x04; x2a] [TClass InTypeDef 3]);
          try reflexivity; [image_here| |usables_here].
        eapply (some_locals _ 2); [lia|reflexivity|vm_compute; reflexivity|blob_here|reflexivity].
  - each_row. eexists _, InTypeDef, _, _. split; [row_name_here|]. split; [reflexivity|]. split; [row_name_here|]. split; [available_here|vm_compute; discriminate].
  - right. exists 4. split; [reflexivity|]. vm_compute. split; discriminate.
  - intros _. vm_compute. reflexivity.
Qed.

(** The hypotheses of C71_start for the example images, in any file system. *)
Lemma demo_after_rt p fs fuel a s : load_data fuel p fs system_runtime (empty_vm []) = Ok a s -> loadable p s console_md demo_plan [] [0].
Proof. intro E. rewrite <- (one_load _ _ _ _ _ _ _ _ _ _ (demo_rt_loaded p fs) E). apply console_loadable. Qed.
Lemma demo_object : exists k, row_name runtime_md InTypeDef k (bytes_of_string "System.Object") \/ row_name console_md InTypeDef k (bytes_of_string "System.Object").
Proof. exists 2. left. name_here "Object"%string "System"%string. Qed.
Example C71_start_example p fs : exists enough s,
  (forall fuel, (enough <= fuel)%nat -> new_runtime fuel p fs [] system_runtime system_console = Ok tt s) /\ planned demo_plan (c_types s).
Proof.
  exact (C71_start p fs [] 3 demo_plan system_runtime system_console runtime_md console_md [] [0] [] [0] (runtime_md_read p) (console_md_read p)
    demo_plan_ok (runtime_loadable p) (demo_after_rt p fs) demo_object).
Qed.
Lemma demo_vm_only p fs fuel s : new_runtime fuel p fs [] system_runtime system_console = Ok tt s -> s = demo_vm.
Proof.
  intro E. assert (F : new_runtime 10 p fs [] system_runtime system_console = Ok tt demo_vm) by (destruct p; vm_compute; reflexivity).
  destruct (Nat.le_ge_cases fuel 10) as [L|L];
    (destruct (refines_new_runtime p fs [] system_runtime system_console _ _ L (empty_vm [])) as [X|X]; rewrite ?E, ?F in X; [discriminate|congruence]).
Qed.
Lemma demo_planned : planned demo_plan (c_types demo_vm).
Proof.
  destruct (C71_start_example Debug no_files) as (K & s & E & P). rewrite <- (demo_vm_only _ _ _ _ (E K (Nat.le_refl _))). exact P.
Qed.
Example C71_load_example p : history p no_files [] demo_vm /\ read_metadata p hello_image tt = Ok hello_md tt /\ plan_ok 3 demo_plan /\
  planned demo_plan (c_types demo_vm) /\ loadable p demo_vm hello_md demo_plan hello_fields [0; 0; 0; 0; 0; 0].
Proof. split; [apply demo_vm_history|]. split; [apply hello_md_read|]. split; [apply demo_plan_ok|]. split; [apply demo_planned|apply hello_loadable]. Qed.
(** The test program prints "hi", from what the images are alone. *)
Example C70_from_images_hello p : exists enough, forall fuel, (enough <= fuel)%nat -> exists s,
  test_program fuel p (only hello_image) [] system_runtime system_console (Some (dot, hello_exe)) = Ok RVoid s /\ c_output s = [104; 105].
Proof.
  destruct (C70_from_images_partial p (only hello_image) [] 3 demo_plan system_runtime system_console runtime_md console_md [] [0] [] [0]
    dot hello_exe hello_image hello_md hello_fields [0; 0; 0; 0; 0; 0] [PropsCalls.main] [3] 0 PropsCalls.main 4) as [X _].
  - apply runtime_md_read. - apply console_md_read. - apply demo_plan_ok. - apply runtime_loadable. - apply demo_after_rt. - apply demo_object.
  - apply console_md_console. - reflexivity. - apply hello_md_read. - apply hello_md_main.
  - intros fuel s E. rewrite (demo_vm_only _ _ _ _ E). apply hello_loadable.
  - apply hello_references. vm_compute. reflexivity.
  - vm_compute. reflexivity. - split; [lia|reflexivity]. - reflexivity. - reflexivity.
  - destruct (X (Normal (Back None (start [] 0)) (after_print (outset PropsCalls.main) [104; 105]))) as [K Y].
    + eapply do_seq; [apply do_print; split; vm_compute; [discriminate|reflexivity]|apply do_return_none].
    + exists K. exact Y.
Qed.

Print Assumptions C71_load.
Print Assumptions C71_start.
Print Assumptions C70_from_images_partial.
