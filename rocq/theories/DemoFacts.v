(** Ways to check by computation that an example meets the hypotheses of a theorem. *)
From Coq Require Import NArith String List Bool Lia.
From Coq.Strings Require Import Byte.
From Verif Require Import Base BaseFacts SpecBytes SpecUtf Pe SpecPe Tables Metadata SpecMetadata Runtime SpecRuntime SpecBlob SpecBody.
Import ListNotations.
Open Scope N_scope.

Lemma check_bytes_at data off bs :
  (off + len bs <=? len data) && bytes_eqb (sub_list off (len bs) data) bs = true -> bytes_at data off bs.
Proof.
  intro H. apply andb_prop in H. destruct H as [H1 H2]. apply N.leb_le in H1. apply bytes_eqb_spec in H2.
  destruct (split_at off (len bs) data H1) as (a & b & c & -> & L1 & L2). subst off.
  rewrite <- L2, sub_list_app in H2. subst b. exists a, c. auto.
Qed.

Lemma ascii_utf8 t : forallb (fun b => bn b <? 0x80) t = true -> is_utf8 t.
Proof.
  intro H. exists (map bn t). induction t as [|b t IH]; cbn in *; [auto|].
  apply andb_prop in H. destruct H as [H1 H2]. destruct (IH H2) as [F E]. split.
  - constructor; [|exact F]. apply N.ltb_lt in H1. unfold scalar. lia.
  - unfold utf8_encode in *. cbn. rewrite <- E. unfold utf8_char. rewrite H1. cbn. f_equal. symmetry. apply nb_bn.
Qed.

Lemma check_text md h t :
  (h + len (t ++ [x00]) <=? len (m_strings md)) && bytes_eqb (sub_list h (len (t ++ [x00])) (m_strings md)) (t ++ [x00]) = true ->
  forallb (fun b => bn b <? 0x80) t = true -> forallb (fun b => negb (bn b =? 0)) t = true -> heap_text md h t.
Proof.
  intros H1 H2 H3. split; [now apply check_bytes_at|]. split; [|now apply ascii_utf8].
  intro I. rewrite forallb_forall in H3. specialize (H3 _ I). discriminate H3.
Qed.

Lemma check_image md rva bs sec secs : pi_sections (m_pe_info md) = sec :: secs ->
  (s_virtual_address sec <=? rva) && (rva <? s_virtual_address sec + s_size_of_raw_data sec) = true ->
  (let off := s_pointer_to_raw_data sec + (rva - s_virtual_address sec) in
   (off + len bs <=? len (m_pe_data md)) && bytes_eqb (sub_list off (len bs) (m_pe_data md)) bs) = true ->
  image_at md rva bs.
Proof.
  intros E H1 H2. apply andb_prop in H1. destruct H1 as [H1 H1']. apply N.leb_le in H1. apply N.ltb_lt in H1'.
  exists (s_pointer_to_raw_data sec + (rva - s_virtual_address sec)). split; [|now apply check_bytes_at].
  exists sec. split; [|reflexivity]. exists [], secs. split; [exact E|]. split; [split; assumption|constructor].
Qed.

Lemma check_known s n : existsb (fun t => bytes_eqb (ti_full_name t) n) (c_types s) = true -> known s n.
Proof.
  intro H. apply existsb_exists in H. destruct H as (t & I & E). exists t. split; [exact I|now apply bytes_eqb_spec].
Qed.
