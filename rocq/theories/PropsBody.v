(** C29 and C30: method bodies. *)
From Coq Require Import NArith String List Bool Lia.
From Coq.Strings Require Import Byte.
From Verif Require Import Base BaseFacts ParseSpec Tables Blob Metadata Runtime Loader SpecBytes SpecUtf SpecBlob Pe SpecPe
  SpecMetadata SpecRuntime BlobProofs RuntimeInv SpecHistory HistoryProofs SpecBody BodyProofs DemoImages DemoStates DemoFacts.
Import ListNotations.
Open Scope N_scope.

(** ** C29 *)

(** A tiny body: the code, the stack limit of eight that II.25.4.2 fixes, no locals and no
    clauses.  Nothing in the runtime changes. *)
Theorem C29_tiny_body : forall p md rva code s,
  sections_ok (pi_sections (m_pe_info md)) -> slice_ok (m_pe_data md) ->
  len code < 64 -> image_at md rva (enc_tiny code) ->
  exists b, load_body p md rva s = Ok b s /\
    b_code b = code /\ b_max_stack b = 8 /\ b_locals b = [] /\ b_clauses b = [].
Proof.
  intros p md rva code s Hs Hd Hc Hi. destruct (tiny_run p md rva code s Hs Hd Hc Hi) as [i E].
  eexists. split; [exact E|]. cbn. auto.
Qed.

(** A fat body: the code, the stack limit and the types of the locals, each being the latest
    registered type with the name that the signature gives.  Missing from the full property:
    locals whose types are pointers, references, generic or multi-dimensional (the loader
    panics, see below) and pinned locals. *)
Theorem C29_fat_body_partial : forall p md rva init ms tok code ls ns s,
  consistent p s -> sections_ok (pi_sections (m_pe_info md)) -> slice_ok (m_pe_data md) -> slice_ok (m_blob md) ->
  ms < 2 ^ 16 -> tok < 2 ^ 32 -> len code < 2 ^ 32 ->
  image_at md rva (enc_fat init false ms tok code) ->
  locals_at md tok ls -> Forall type_ok ls ->
  Forall2 (type_name md) ls ns -> Forall (element_known md s) ls ->
  (p = Debug -> len (c_types s) + sum (map vectors ls) < 2 ^ 32) ->
  exists b s', load_body p md rva s = Ok b s' /\
    b_code b = code /\ b_max_stack b = ms /\ b_init_locals b = init /\ b_clauses b = [] /\
    Forall2 (latest (c_types s')) ns (b_locals b).
Proof.
  intros p md rva init ms tok code ls ns s W Hs Hd Hb Hm Ht Hc Hi Hl Fo F K R.
  assert (Hi' : image_at md rva (enc_fat init false ms tok code ++ [])) by (now rewrite app_nil_r).
  destruct (fat_run p md rva init false ms tok code [] ls ns s W Hs Hd Hb Hm Ht Hc Hi' Hl F Fo K R)
    as (ts & s' & W' & G & L & post & _ & X).
  eexists _, s'. split; [apply (X []); reflexivity|]. cbn. auto 10.
Qed.

(** The kinds of types that are not supported. *)
Definition unsupported (t : sig_type) : Prop :=
  match t with
  | TPtr _ | TByRef _ | TVar _ | TMVar _ | TArray _ _ | TGenericInst _ _ | TSimple PTypedByRef => True
  | _ => False
  end.

(** What the loader does instead of decoding such a local. *)
Theorem C29_unsupported_local_refuted : forall p md rva init more ms tok code t ls s,
  consistent p s -> sections_ok (pi_sections (m_pe_info md)) -> slice_ok (m_pe_data md) -> slice_ok (m_blob md) ->
  ms < 2 ^ 16 -> tok < 2 ^ 32 -> len code < 2 ^ 32 ->
  image_at md rva (enc_fat init more ms tok code) ->
  locals_at md tok (t :: ls) -> faithful t -> unsupported t ->
  exists why, load_body p md rva s = Panic why.
Proof.
  intros p md rva init more ms tok code t ls s W Hs Hd Hb Hm Ht Hc Hi Hl Ft Hu.
  destruct (fat_locals p md rva init more ms tok code s Hs Hd Hm Ht Hc Hi) as [k E]. rewrite E.
  destruct (first_local_run p md tok t ls s W Hb Hl Ft) as [k' E']. unfold bind at 1. rewrite E'.
  destruct t as [sm| | | | | | | | | | |]; try contradiction Hu; [destruct sm; try contradiction Hu| | | | | |];
    eexists; reflexivity.
Qed.

(** ** C30 *)

(** All clauses of a body with one section, in order. *)
Theorem C30_clauses_partial : forall p md rva init ms tok code f es bs ls ns s,
  consistent p s -> sections_ok (pi_sections (m_pe_info md)) -> slice_ok (m_pe_data md) -> slice_ok (m_blob md) ->
  ms < 2 ^ 16 -> tok < 2 ^ 32 -> len code < 2 ^ 32 ->
  image_at md rva (enc_fat init true ms tok code ++ f ++ bs) ->
  fill (12 + len code) f -> eh_section false es bs -> Forall (catch_known md s) es ->
  locals_at md tok ls -> Forall type_ok ls ->
  Forall2 (type_name md) ls ns -> Forall (element_known md s) ls ->
  (p = Debug -> len (c_types s) + sum (map vectors ls) < 2 ^ 32) ->
  exists b s', load_body p md rva s = Ok b s' /\
    b_code b = code /\ b_max_stack b = ms /\ b_init_locals b = init /\
    Forall2 (latest (c_types s')) ns (b_locals b) /\
    Forall2 (stands_for md s') es (b_clauses b).
Proof.
  intros p md rva init ms tok code f es bs ls ns s W Hs Hd Hb Hm Ht Hc Hi Hf He Hk Hl Fo F K R.
  destruct (fat_run p md rva init true ms tok code (f ++ bs) ls ns s W Hs Hd Hb Hm Ht Hc Hi Hl F Fo K R)
    as (ts & s' & W' & G & L & post & Ho & X).
  rewrite <- app_assoc in Ho.
  assert (Hk' : Forall (catch_known md s') es).
  { eapply Forall_impl; [|exact Hk]. intros e He' Ek. destruct (He' Ek) as (n & C & Kn). exists n. split; [exact C|].
    eapply known_grows; eauto. }
  assert (Hf' : fill (len (enc_fat init true ms tok code)) f).
  { replace (len (enc_fat init true ms tok code)) with (12 + len code); [exact Hf|]. unfold enc_fat. slen. lia. }
  destruct (read_section_run p md s' false es bs f _ post W' He Hf' Hk' Ho) as (cs & Ec & St).
  exists (mkBody code ms ts init cs), s'. split; [apply X; rewrite <- app_assoc; exact Ec|]. cbn. auto 10.
Qed.

Lemma Forall2_len {A B} (R : A -> B -> Prop) l l' : Forall2 R l l' -> List.length l = List.length l'.
Proof. induction 1; cbn; auto. Qed.

(** With a second section, its clauses are lost: II.25.4.5 allows several. *)
Theorem C30_later_sections_refuted : forall p md rva init ms tok code f es bs f2 es2 bs2 ls ns s,
  consistent p s -> sections_ok (pi_sections (m_pe_info md)) -> slice_ok (m_pe_data md) -> slice_ok (m_blob md) ->
  ms < 2 ^ 16 -> tok < 2 ^ 32 -> len code < 2 ^ 32 ->
  image_at md rva (enc_fat init true ms tok code ++ f ++ bs ++ f2 ++ bs2) ->
  fill (12 + len code) f -> eh_section true es bs -> Forall (catch_known md s) es ->
  fill (len bs) f2 -> eh_section false es2 bs2 -> es2 <> [] ->
  locals_at md tok ls -> Forall type_ok ls ->
  Forall2 (type_name md) ls ns -> Forall (element_known md s) ls ->
  (p = Debug -> len (c_types s) + sum (map vectors ls) < 2 ^ 32) ->
  exists b s', load_body p md rva s = Ok b s' /\
    Forall2 (stands_for md s') es (b_clauses b) /\ ~ Forall2 (stands_for md s') (es ++ es2) (b_clauses b).
Proof.
  intros p md rva init ms tok code f es bs f2 es2 bs2 ls ns s W Hs Hd Hb Hm Ht Hc Hi Hf He Hk _ _ Hn Hl Fo F K R.
  destruct (fat_run p md rva init true ms tok code (f ++ bs ++ f2 ++ bs2) ls ns s W Hs Hd Hb Hm Ht Hc Hi Hl F Fo K R)
    as (ts & s' & W' & G & L & post & Ho & X).
  rewrite <- !app_assoc in Ho.
  assert (Hk' : Forall (catch_known md s') es).
  { eapply Forall_impl; [|exact Hk]. intros e He' Ek. destruct (He' Ek) as (n & C & Kn). exists n. split; [exact C|].
    eapply known_grows; eauto. }
  assert (Hf' : fill (len (enc_fat init true ms tok code)) f).
  { replace (len (enc_fat init true ms tok code)) with (12 + len code); [exact Hf|]. unfold enc_fat. slen. lia. }
  destruct (read_section_run p md s' true es bs f _ (f2 ++ bs2 ++ post) W' He Hf' Hk' Ho) as (cs & Ec & St).
  exists (mkBody code ms ts init cs), s'. split; [apply X; rewrite <- !app_assoc; exact Ec|]. cbn. split; [exact St|].
  intro St'. apply Forall2_len in St. apply Forall2_len in St'. rewrite app_length in St'.
  destruct es2; [now apply Hn|]. cbn in St'. lia.
Qed.

(** ** Examples *)

Definition demo_ready p : consistent p demo_app := proj1 (history_ok p _ _ _ (demo_app_history p)).

Lemma demo_parts : sections_ok (pi_sections (m_pe_info demo_md)) /\ slice_ok (m_pe_data demo_md) /\ slice_ok (m_blob demo_md).
Proof.
  split; [|split; vm_compute; reflexivity]. cbn [pi_sections m_pe_info demo_md]. constructor; [|constructor].
  split; [vm_compute; reflexivity|vm_compute; discriminate].
Qed.

Ltac image_here := eapply check_image; [reflexivity|vm_compute; reflexivity|vm_compute; reflexivity].
Ltac text_here := apply check_text; vm_compute; reflexivity.
Ltac room_here := intros _; vm_compute; reflexivity.

(** The body of [Add]. *)
Example C29_tiny_body_example : len [x02; x03; x58; x2a] < 64 /\ image_at demo_md 4176 (enc_tiny [x02; x03; x58; x2a]).
Proof. split; [vm_compute; reflexivity|image_here]. Qed.

(** The body of [MakePoint]: one local, of the class [App.Point]. *)
Definition make_point_code : list byte :=
  [x73; x01; x00; x00; x06; x0a; x06; x1d; x7d; x01; x00; x00; x04; x06; x7b; x01; x00; x00; x04; x2a].

Lemma point_name : row_name demo_md InTypeDef 3 (bytes_of_string "App.Point").
Proof.
  change (bytes_of_string "App.Point") with (qualified (bytes_of_string "Point") (bytes_of_string "App")).
  eapply in_type_def; [discriminate|vm_compute; reflexivity|text_here|text_here].
Qed.

Example C29_fat_body_example :
  image_at demo_md 4276 (enc_fat true false 3 0x11000002 make_point_code) /\
  locals_at demo_md 0x11000002 [TClass InTypeDef 3] /\ Forall type_ok [TClass InTypeDef 3] /\
  Forall2 (type_name demo_md) [TClass InTypeDef 3] [bytes_of_string "App.Point"] /\
  Forall (element_known demo_md demo_app) [TClass InTypeDef 3] /\
  len (c_types demo_app) + sum (map vectors [TClass InTypeDef 3]) < 2 ^ 32.
Proof.
  split; [image_here|]. split.
  { change 0x11000002 with (0x11000000 + 2). eapply some_locals; [discriminate|vm_compute; reflexivity|vm_compute; reflexivity| |vm_compute; reflexivity].
    split; [apply check_bytes_at; vm_compute; reflexivity|vm_compute; reflexivity]. }
  split; [constructor; [|constructor]; vm_compute; reflexivity|].
  split; [constructor; [|constructor]; constructor; exact point_name|].
  split; [constructor; [|constructor]; eapply element_known_intro;
          [apply name_class; exact point_name|apply check_known; vm_compute; reflexivity|discriminate]|].
  vm_compute. reflexivity.
Qed.

(** The application's metadata with other bytes at 4096 and another signature in the first
    StandAloneSig row. *)
Definition patched (body sig : list byte) : metadata :=
  {| m_pe_data := repeat x00 352 ++ body; m_pe_info := m_pe_info demo_md; m_cli_header := m_cli_header demo_md;
     m_strings := m_strings demo_md; m_user_strings := m_user_strings demo_md;
     m_blob := repeat x00 27 ++ compress (len sig) ++ sig; m_guid := m_guid demo_md;
     m_tables := m_tables demo_md; m_entry_point := m_entry_point demo_md |}.

Example C29_unsupported_local_example :
  let md := patched (enc_fat true false 1 0x11000001 [x2a]) (enc_local_sig [TPtr (TSimple PI4)]) in
  image_at md 4096 (enc_fat true false 1 0x11000001 [x2a]) /\
  locals_at md 0x11000001 [TPtr (TSimple PI4)] /\ faithful (TPtr (TSimple PI4)) /\ unsupported (TPtr (TSimple PI4)).
Proof.
  intro md. split; [image_here|]. split.
  { change 0x11000001 with (0x11000000 + 1). eapply some_locals; [discriminate|vm_compute; reflexivity|vm_compute; reflexivity| |vm_compute; reflexivity].
    split; [apply check_bytes_at; vm_compute; reflexivity|vm_compute; reflexivity]. }
  split; [split; [exact I|split; reflexivity]|exact I].
Qed.

(** The body of [Guarded]: a catch and a finally clause, after one fill byte. *)
Definition guarded_clauses : list eh :=
  [{| eh_is := EhCatch; eh_try_offset := 0; eh_try_length := 3; eh_handler_offset := 3; eh_handler_length := 3; eh_operand := 0x01000003 |};
   {| eh_is := EhFinally; eh_try_offset := 0; eh_try_length := 3; eh_handler_offset := 3; eh_handler_length := 3; eh_operand := 0 |}].
Definition guarded_code : list byte := [x00; xde; x00; x26; xde; x00; x2a].

Lemma exception_caught : caught demo_md 0x01000003 (bytes_of_string "System.Exception").
Proof.
  change 0x01000003 with (0x01000000 + 3). apply caught_ref; [vm_compute; reflexivity|].
  change (bytes_of_string "System.Exception") with (qualified (bytes_of_string "Exception") (bytes_of_string "System")).
  eapply in_type_ref; [discriminate|vm_compute; reflexivity|text_here|text_here].
Qed.

Lemma guarded_known : Forall (catch_known demo_md demo_app) guarded_clauses.
Proof.
  repeat constructor; intro E; [|discriminate E]. exists (bytes_of_string "System.Exception").
  split; [exact exception_caught|apply check_known; vm_compute; reflexivity].
Qed.

Lemma guarded_small : Forall small_clause_ok guarded_clauses /\ Forall fat_clause_ok guarded_clauses.
Proof. split; repeat constructor. Qed.

Example C30_clauses_example :
  image_at demo_md 4228 (enc_fat true true 1 0 guarded_code ++ [x00] ++ enc_small_section false guarded_clauses) /\
  fill (12 + len guarded_code) [x00] /\
  eh_section false guarded_clauses (enc_small_section false guarded_clauses) /\
  Forall (catch_known demo_md demo_app) guarded_clauses /\ locals_at demo_md 0 [].
Proof.
  split; [image_here|]. split; [split; vm_compute; reflexivity|].
  split; [constructor; [apply guarded_small|vm_compute; reflexivity]|].
  split; [exact guarded_known|constructor].
Qed.

(** The same body with the clauses in two sections, the second in the fat form. *)
Example C30_later_sections_example :
  let one := firstn 1 guarded_clauses in let two := skipn 1 guarded_clauses in
  let md := patched (enc_fat true true 1 0 guarded_code ++ [x00] ++ enc_small_section true one ++ [] ++ enc_fat_section false two) [] in
  image_at md 4096 (enc_fat true true 1 0 guarded_code ++ [x00] ++ enc_small_section true one ++ [] ++ enc_fat_section false two) /\
  fill (12 + len guarded_code) [x00] /\ eh_section true one (enc_small_section true one) /\
  Forall (catch_known md demo_app) one /\ fill (len (enc_small_section true one)) [] /\
  eh_section false two (enc_fat_section false two) /\ two <> [].
Proof.
  intros one two md. split; [image_here|]. split; [split; vm_compute; reflexivity|].
  split; [constructor; [repeat constructor|vm_compute; reflexivity]|].
  split.
  { repeat constructor. intros _. exists (bytes_of_string "System.Exception"). split; [|apply check_known; vm_compute; reflexivity].
    change (eh_operand _) with (0x01000000 + 3). apply caught_ref; [vm_compute; reflexivity|].
    change (bytes_of_string "System.Exception") with (qualified (bytes_of_string "Exception") (bytes_of_string "System")).
    eapply in_type_ref; [discriminate|vm_compute; reflexivity|text_here|text_here]. }
  split; [split; vm_compute; reflexivity|]. split; [constructor; [repeat constructor|vm_compute; reflexivity]|discriminate].
Qed.

Print Assumptions C29_tiny_body.
Print Assumptions C29_fat_body_partial.
Print Assumptions C29_unsupported_local_refuted.
Print Assumptions C30_clauses_partial.
Print Assumptions C30_later_sections_refuted.
