(** Property C05: the same tokens from several buffers, when every cut is harmless (ChunkSpec.v). *)
From Verif Require Import Base ScanModel TokModel TokSpec TokIsa JsonSpec ChunkSpec TokChunk.

(** A text without NUL bytes, cut at harmless places only, into buffers that were all added before
    ([bufs]) or arrive through the callback ([supply]): the same tokens and the same final error as
    from one buffer.  On every instruction set but the scalar one no buffer may end in a backslash
    (see C06_same_tokens_for_every_build_refuted).  Missing from C05: comments (o_comments) and newlines as delimiters (o_nl), NUL
    bytes, and the cuts that really change the tokens (C05_*_refuted). *)
Theorem C05_harmless_cuts_partial : forall o bufs supply,
  o_comments o = false -> o_nl o = false ->
  (o_isa o = Scalar \/ cut_clean (bufs ++ concat supply)) ->
  ~ In x00 (concat (bufs ++ concat supply)) ->
  Forall (fun l => l <> []) supply ->
  harmless_cuts place_start (bufs ++ concat supply) ->
  forall vs e, reads_as o [concat (bufs ++ concat supply)] [] vs e <-> reads_as o bufs supply vs e.
Proof. exact harmless_cuts_same. Qed.
Print Assumptions C05_harmless_cuts_partial.

(** Cuts inside a name, behind a name and a space, inside a word, behind a comma, inside a number,
    in an escape sequence of a value, behind a bracket; two deliveries through the callback. *)
Definition harmless_bufs : list bytes :=
  [s2b "{""na"; s2b "me"" "; s2b ": [tr"; s2b "ue,"; s2b " 12"; s2b "3"].
Definition harmless_supply : list (list bytes) :=
  [[s2b "4, {""k"": ""v\"; s2b """w"""]; [s2b "}"; s2b "]}"]].

Example C05_harmless_cuts_nonvacuous : forall o, o = mkOpts Scalar false false false false ->
  o_comments o = false /\ o_nl o = false /\
  (o_isa o = Scalar \/ cut_clean (harmless_bufs ++ concat harmless_supply)) /\
  ~ In x00 (concat (harmless_bufs ++ concat harmless_supply)) /\
  Forall (fun l => l <> []) harmless_supply /\
  harmless_cuts place_start (harmless_bufs ++ concat harmless_supply) /\
  exists vs, reads_as o harmless_bufs harmless_supply vs NeedMoreData /\ length vs = 9.
Proof.
  intros o ->. split; [reflexivity|]. split; [reflexivity|]. split; [left; reflexivity|].
  split; [vm_compute; intuition discriminate|]. split; [repeat constructor; discriminate|].
  split; [vm_compute; tauto|].
  eexists. split; [intros nt; exists 20; do 2 eexists; split; [vm_compute; reflexivity|reflexivity]|reflexivity].
Qed.

Example C05_harmless_cuts_wide_nonvacuous :
  let bufs := [s2b "{""na"; s2b "me"" "; s2b ": [tr"; s2b "ue,"; s2b " 12"; s2b "3]}"] in
  cut_clean (bufs ++ concat []) /\ harmless_cuts place_start (bufs ++ concat []).
Proof.
  split; [|vm_compute; tauto].
  intros l1 b l2 E Hn [x ->].
  do 6 (destruct l1 as [|? l1]; [injection E as E _; apply (f_equal (fun l => last l x00)) in E;
         rewrite last_last in E; discriminate E|injection E as _ E]).
  destruct l1; discriminate E.
Qed.

(** The places that are not harmless really change the tokens.  A cut directly behind a colon, or
    directly behind the closing quote of a member name: the name is lost. *)
Theorem C05_cut_behind_colon_refuted :
  let o := mkOpts Scalar false false false false in
  exists vs, reads_as o [s2b "{""a"":1}"] [] vs NeedMoreData /\
    exists vs2, reads_as o [s2b "{""a"":"; s2b "1}"] [] vs2 NeedMoreData /\
      map st_name vs = [[]; s2b "a"; []] /\ map st_name vs2 = [[]; []; []].
Proof.
  eexists. split; [intros nt; exists 20; do 2 eexists; split; [vm_compute; reflexivity|reflexivity]|].
  eexists. split; [intros nt; exists 20; do 2 eexists; split; [vm_compute; reflexivity|reflexivity]|].
  split; reflexivity.
Qed.
Print Assumptions C05_cut_behind_colon_refuted.

Theorem C05_cut_behind_name_refuted :
  let o := mkOpts Scalar false false false false in
  exists vs, reads_as o [s2b "{""a"":1}"] [] vs NeedMoreData /\
    exists vs2, reads_as o [s2b "{""a"""; s2b ":1}"] [] vs2 NeedMoreData /\
      map st_name vs = [[]; s2b "a"; []] /\ map st_name vs2 = [[]; []; []].
Proof.
  eexists. split; [intros nt; exists 20; do 2 eexists; split; [vm_compute; reflexivity|reflexivity]|].
  eexists. split; [intros nt; exists 20; do 2 eexists; split; [vm_compute; reflexivity|reflexivity]|].
  split; reflexivity.
Qed.
Print Assumptions C05_cut_behind_name_refuted.

(** A cut behind an array element and a space: the element becomes the empty string. *)
Theorem C05_cut_behind_element_refuted :
  let o := mkOpts Scalar false false false false in
  exists vs, reads_as o [s2b "[1 ,2]"] [] vs NeedMoreData /\
    exists vs2, reads_as o [s2b "[1 "; s2b ",2]"] [] vs2 NeedMoreData /\
      map st_value vs = [s2b "["; s2b "1"; s2b "2"; s2b "]"] /\
      map st_value vs2 = [s2b "["; []; s2b "2"; s2b "]"].
Proof.
  eexists. split; [intros nt; exists 20; do 2 eexists; split; [vm_compute; reflexivity|reflexivity]|].
  eexists. split; [intros nt; exists 20; do 2 eexists; split; [vm_compute; reflexivity|reflexivity]|].
  split; reflexivity.
Qed.
Print Assumptions C05_cut_behind_element_refuted.

(** The automaton calls none of these places harmless. *)
Example C05_harmful_places :
  harmless (feed place_start (s2b "{""a"":")) = false /\
  harmless (feed place_start (s2b "{""a""")) = false /\
  harmless (feed place_start (s2b "[1 ")) = false /\
  harmless (feed place_start (s2b "[""abc""")) = false /\
  harmless (feed place_start (s2b "[""abc"" ")) = false.
Proof. repeat split. Qed.
