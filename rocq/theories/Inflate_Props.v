(** Properties C135-C139: what UnZlib, UnGzip and CheckGzipType make of any bytes. *)
From stdpp Require Import list.
From Coq Require Import ZArith Lia.
From Verif Require Import GoInt Hash_Model Crc_Model Compress_Model Compress_Proofs Compress_Props Inflate_Model Inflate_Spec Inflate_Huff Inflate_Proofs Inflate_Stream Inflate_More Inflate_Bomb.
From Verif Require Crc_Spec Crc_Props.
Local Open Scope Z_scope.

(** ** C135: UnZlib returns what a zlib stream stands for *)

Lemma as_reader_all k read bs : as_reader k read bs = None /\ read bs = None \/
  exists d e r, read bs = Some (d, e) /\ as_reader k read bs = Some r /\ data r = d /\ eof r = e /\ Forall (fun ch => ch <> []) (chunks r).
Proof.
  unfold as_reader. destruct (read bs) as [[d e]|]; [right|left; auto]. exists d, e. eexists. split; [reflexivity|]. split; [reflexivity|].
  unfold data. cbn [chunks last_chunk eof]. split; [apply cut_all|]. split; [reflexivity|apply cut_some].
Qed.
Lemma unzlib_is k out bs : UnZlib (zlib_codec k out) bs = match zlib_read bs with Some (d, true) => (d, false) | _ => ([], true) end.
Proof.
  unfold UnZlib. cbn [zlib_codec reader]. destruct (as_reader_all k zlib_read bs) as [[-> ->]|(d & e & r & -> & -> & D & E & _)]; [reflexivity|].
  unfold ReadFrom. rewrite D, E. destruct e; reflexivity.
Qed.
Lemma ungzip_is k out bs : UnGzip (gzip_codec k out) bs = match gzip_read bs with Some (d, true) => (d, false) | _ => ([], true) end.
Proof.
  unfold UnGzip. cbn [gzip_codec reader]. destruct (as_reader_all k gzip_read bs) as [[-> ->]|(d & e & r & -> & -> & D & E & _)]; [reflexivity|].
  unfold ReadFrom. rewrite D, E. destruct e; reflexivity.
Qed.
Lemma uunzlib_is k out bs : uUnZlib (zlib_codec k out) bs = match zlib_read bs with Some (d, _) => (d, false) | None => ([], true) end.
Proof.
  unfold uUnZlib. cbn [zlib_codec reader]. destruct (as_reader_all k zlib_read bs) as [[-> ->]|(d & e & r & -> & -> & D & E & _)]; [reflexivity|].
  unfold ReadFrom. rewrite D. reflexivity.
Qed.
Lemma uungzip_is k out bs : match gzip_read bs with
  | Some (d, e) => (uUnGzip (gzip_codec k out) bs).2 = false /\ (uUnGzip (gzip_codec k out) bs).1 `prefix_of` d /\ (e = true -> (uUnGzip (gzip_codec k out) bs).1 = d)
  | None => uUnGzip (gzip_codec k out) bs = ([], true) end.
Proof.
  unfold uUnGzip. cbn [gzip_codec reader]. destruct (as_reader_all k gzip_read bs) as [[-> ->]|(d & e & r & -> & -> & D & E & C)]; [reflexivity|].
  rewrite (ungzip_loop_all (chunks r) [] C), E. cbn [app andb]. subst d. split; [reflexivity|]. unfold data. cbn [fst]. destruct e; cbn [andb].
  - split; [reflexivity|auto].
  - split; [apply prefix_app_r; reflexivity|discriminate].
Qed.

(** C135. UnZlib returns x without an error exactly if the bytes begin with a zlib stream for x; what follows it is not looked at. *)
Theorem c135_unzlib_exact : forall k out bs x, bytes bs ->
  UnZlib (zlib_codec k out) bs = (x, false) <-> exists s t, zlib s x /\ bs = s ++ t.
Proof.
  intros k out bs x B. rewrite unzlib_is, <- (zlib_read_iff bs x B). destruct (zlib_read bs) as [[d []]|].
  - split; congruence.
  - split; congruence.
  - split; congruence.
Qed.
Print Assumptions c135_unzlib_exact.
(** C135. In all other cases there are no bytes and an error. *)
Theorem c135_otherwise_error : forall k out bs, bytes bs -> (~ exists s t x, zlib s x /\ bs = s ++ t) -> UnZlib (zlib_codec k out) bs = ([], true).
Proof.
  intros k out bs B H. rewrite unzlib_is. destruct (zlib_read bs) as [[d []]|] eqn:E; try reflexivity. exfalso. apply H.
  apply zlib_read_iff in E; [|exact B]. destruct E as (s & t & Z & ->). exists s, t, d. auto.
Qed.
Print Assumptions c135_otherwise_error.
(** C135. The format leaves no choice: bytes begin with at most one stream, and it stands for one list of bytes. *)
Theorem c135_one_meaning : forall s t x s' t' x', bytes (s ++ t) -> zlib s x -> zlib s' x' -> s ++ t = s' ++ t' -> s = s' /\ t = t' /\ x = x'.
Proof.
  intros s t x s' t' x' B Z Z' E. pose proof Z as (h & d & Es & Zh & D). pose proof Z' as (h' & d' & Es' & Zh' & D').
  assert (H1 : zhead_read (s ++ t) = Some (d ++ big 4 (adler32 x) ++ t)) by (apply zhead_read_iff; [exact B|]; exists h; split; [exact Zh|]; rewrite Es, <- !app_assoc; reflexivity).
  assert (H2 : zhead_read (s ++ t) = Some (d' ++ big 4 (adler32 x') ++ t')) by (apply zhead_read_iff; [exact B|]; exists h'; split; [exact Zh'|]; rewrite E, Es', <- !app_assoc; reflexivity).
  assert (H : d ++ big 4 (adler32 x) ++ t = d' ++ big 4 (adler32 x') ++ t') by congruence.
  pose proof (flate_complete d x (big 4 (adler32 x) ++ t) D) as F. rewrite H, (flate_complete d' x' (big 4 (adler32 x') ++ t') D') in F.
  assert (Ex : x = x') by congruence. subst x'. assert (Et : t = t') by (apply (app_inv_head (big 4 (adler32 x))); congruence). subst t'.
  apply app_inv_tail in E. auto.
Qed.
Print Assumptions c135_one_meaning.
(** C135. util.UnZlib returns the same where UnZlib returns something; it reports an error only for a wrong header. *)
Theorem c135_util_unzlib : forall k out bs, bytes bs ->
  ((uUnZlib (zlib_codec k out) bs).2 = false <-> exists h t, zheader h /\ bs = h ++ t) /\
  (forall x, UnZlib (zlib_codec k out) bs = (x, false) -> uUnZlib (zlib_codec k out) bs = (x, false)).
Proof.
  intros k out bs B. rewrite uunzlib_is, unzlib_is. split.
  - rewrite zlib_read_split. destruct (zhead_read bs) as [r|] eqn:H.
    + apply zhead_read_iff in H; [|exact B]. destruct H as (h & Zh & ->). destruct (ztail_read r). cbn [snd]. split; [eauto|reflexivity].
    + cbn [snd]. split; [discriminate|]. intros (h & t & Zh & ->). rewrite (proj2 (zhead_read_iff (h ++ t) t B)) in H by eauto. discriminate.
  - intros x. destruct (zlib_read bs) as [[d []]|]; congruence.
Qed.
Print Assumptions c135_util_unzlib.
Definition whole : cutter := Cutter (fun _ d => ([], d)) (fun _ _ => eq_refl) (fun _ _ => List.Forall_nil _).
Definition ex_z : codec := zlib_codec whole (sink stored).
Example c135_ex : UnZlib ex_z [120; 1; 75; 76; 42; 74; 76; 78; 76; 73; 4; 82; 10; 137; 52; 102; 3; 0; 149; 215; 40; 21] = ([97; 98; 114; 97; 99; 97; 100; 97; 98; 114; 97; 32; 97; 98; 114; 97; 99; 97; 100; 97; 98; 114; 97; 32; 97; 98; 114; 97; 99; 97; 100; 97; 98; 114; 97; 32; 97; 98; 114; 97; 99; 97; 100; 97; 98; 114; 97; 32; 97; 98; 114; 97; 99; 97; 100; 97; 98; 114; 97; 32; 97; 98; 114; 97; 99; 97; 100; 97; 98; 114; 97; 32; 97; 98; 114; 97; 99; 97; 100; 97; 98; 114; 97; 32; 97; 98; 114; 97; 99; 97; 100; 97; 98; 114; 97; 32; 97; 98; 114; 97; 99; 97; 100; 97; 98; 114; 97; 32], false) /\ UnZlib ex_z ([120; 218; 157; 138; 183; 13; 128; 64; 16; 192; 86; 185; 61; 152; 134; 207; 249; 62; 167; 233; 65; 84; 148; 8; 119; 150; 93; 21; 135; 212; 52; 181; 64; 50; 142; 0; 2; 39; 152; 230; 99; 1; 236; 60; 67; 189; 179; 59; 247; 2; 134; 242; 120; 236; 243; 124; 18; 202; 184; 144; 74; 27; 235; 124; 192; 152; 114; 169; 173; 143; 185; 246; 159; 242; 230; 2; 41; 66; 71; 190] ++ [1; 2; 3]) = ([116; 104; 101; 32; 113; 117; 105; 99; 107; 32; 98; 114; 111; 119; 110; 32; 102; 111; 120; 32; 106; 117; 109; 112; 115; 32; 111; 118; 101; 114; 32; 116; 104; 101; 32; 108; 97; 122; 121; 32; 100; 111; 103; 59; 32; 116; 104; 101; 32; 113; 117; 105; 99; 107; 32; 98; 114; 111; 119; 110; 32; 102; 111; 120; 32; 106; 117; 109; 112; 115; 32; 111; 118; 101; 114; 32; 116; 104; 101; 32; 108; 97; 122; 121; 32; 100; 111; 103; 59; 32; 97; 98; 99; 100; 101; 102; 103; 104; 105; 106; 107; 108; 109; 110; 111; 112; 113; 114; 115; 116; 117; 118; 119; 120; 121; 122; 97; 98; 99; 100; 101; 102; 103; 104; 105; 106; 107; 108; 109; 110; 111; 112; 113; 114; 115; 116; 117; 118; 119; 120; 121; 122; 97; 98; 99; 100; 101; 102; 103; 104; 105; 106; 107; 108; 109; 110; 111; 112; 113; 114; 115; 116; 117; 118; 119; 120; 121; 122; 122; 122; 122; 122; 122; 122; 122; 122; 122; 122; 122; 122], false) /\
  UnZlib ex_z [120; 1; 75; 77; 42; 74; 3; 0; 0; 0; 0; 0] = ([], true) /\ uUnZlib ex_z [120; 1; 75; 77; 42; 74; 3; 0; 0; 0; 0; 0] = ([101; 98; 114; 102], false).
Proof. repeat split; vm_compute; reflexivity. Qed.

(** ** C136: UnGzip returns what a gzip file stands for *)

Theorem c136_ungzip_exact : forall k out bs x, bytes bs -> UnGzip (gzip_codec k out) bs = (x, false) <-> gzip bs x.
Proof.
  intros k out bs x B. rewrite ungzip_is, <- (gzip_read_iff bs x B). destruct (gzip_read bs) as [[d []]|].
  - split; congruence.
  - split; congruence.
  - split; congruence.
Qed.
Print Assumptions c136_ungzip_exact.
(** C136. In all other cases there are no bytes and an error. *)
Theorem c136_otherwise_error : forall k out bs, bytes bs -> (~ exists x, gzip bs x) -> UnGzip (gzip_codec k out) bs = ([], true).
Proof.
  intros k out bs B H. rewrite ungzip_is. destruct (gzip_read bs) as [[d []]|] eqn:E; try reflexivity. exfalso. apply H.
  apply gzip_read_iff in E; [|exact B]. eauto.
Qed.
Print Assumptions c136_otherwise_error.
(** C136. A file stands for one list of bytes. *)
Theorem c136_one_meaning : forall s x y, gzip s x -> gzip s y -> x = y.
Proof. intros s x y H1 H2. pose proof (gzip_bytes s x H1) as B. apply gzip_read_iff in H1; [|exact B]. apply gzip_read_iff in H2; [|exact B]. congruence. Qed.
Print Assumptions c136_one_meaning.
Lemma gzip_app s x t y : gzip s x -> gzip t y -> gzip (s ++ t) (x ++ y).
Proof.
  intros H Ht. induction H as [s x M|s x ss xs M H IH]; [apply g_more; assumption|]. rewrite <- !app_assoc. apply g_more; assumption.
Qed.
(** C136. Files put one behind the other give their contents one behind the other. *)
Theorem c136_concatenation : forall k out a b x y, bytes a -> bytes b ->
  UnGzip (gzip_codec k out) a = (x, false) -> UnGzip (gzip_codec k out) b = (y, false) -> UnGzip (gzip_codec k out) (a ++ b) = (x ++ y, false).
Proof.
  intros k out a b x y Ba Bb H1 H2. apply c136_ungzip_exact in H1; [|exact Ba]. apply c136_ungzip_exact in H2; [|exact Bb].
  apply c136_ungzip_exact; [apply Forall_app_2; assumption|]. apply gzip_app; assumption.
Qed.
Print Assumptions c136_concatenation.
(** C136. util.UnGzip and CheckGzipType report an error exactly if the bytes do not begin with the header of a gzip file; and what UnGzip
    returns, util.UnGzip returns too, however Read cuts it. *)
Theorem c136_util_ungzip : forall k out bs, bytes bs ->
  ((uUnGzip (gzip_codec k out) bs).2 = false <-> exists h t, gheader h /\ bs = h ++ t) /\
  (CheckGzipType (gzip_codec k out) bs = false <-> exists h t, gheader h /\ bs = h ++ t) /\
  (forall x, UnGzip (gzip_codec k out) bs = (x, false) -> uUnGzip (gzip_codec k out) bs = (x, false)).
Proof.
  intros k out bs B. pose proof (uungzip_is k out bs) as U.
  assert (C : CheckGzipType (gzip_codec k out) bs = match gzip_read bs with None => true | Some _ => false end).
  { unfold CheckGzipType. cbn [gzip_codec reader]. destruct (as_reader_all k gzip_read bs) as [[-> ->]|(d & e & r & -> & -> & _)]; reflexivity. }
  assert (H : gzip_read bs <> None <-> exists h t, gheader h /\ bs = h ++ t).
  { unfold gzip_read. split.
    - destruct (readHeader bs) as [r| |] eqn:R; try congruence. intros _. apply readHeader_iff in R; [|exact B]. destruct R as (h & G & ->). eauto.
    - intros (h & t & G & E). rewrite (proj2 (readHeader_iff bs t B)) by eauto. discriminate. }
  split; [|split].
  - rewrite <- H. destruct (gzip_read bs) as [[d e]|]; [destruct U as [-> _]; split; congruence|rewrite U; cbn [snd]; split; congruence].
  - rewrite <- H, C. destruct (gzip_read bs); split; congruence.
  - intros x. rewrite ungzip_is. destruct (gzip_read bs) as [[d []]|]; try congruence. destruct U as (U2 & _ & U1). intros [= ->]. rewrite (surjective_pairing (uUnGzip _ _)), U2, U1 by reflexivity. reflexivity.
Qed.
Print Assumptions c136_util_ungzip.
Definition gstored (lv : Z) (x : list Z) (st : stage) : list Z :=
  let h := [31; 139; 8; 0; 0; 0; 0; 0; 0; 255] in
  let e := [1; 0; 0; 255; 255] ++ Crc_Spec.le_bytes 4 (CRC32 x) ++ Crc_Spec.le_bytes 4 (Z.of_nat (length x)) in
  match st with
  | Written => h
  | Flushed => h ++ stored_blocks x ++ zsync
  | Closed => h ++ stored_blocks x ++ e
  | FlushedClosed => h ++ stored_blocks x ++ zsync ++ e
  end.
Definition ex_g : codec := gzip_codec whole gstored.
Example c136_ex : UnGzip ex_g [31; 139; 8; 0; 5; 0; 0; 0; 2; 255; 75; 76; 42; 74; 76; 78; 76; 73; 4; 82; 10; 137; 52; 102; 3; 0; 3; 158; 44; 91; 108; 0; 0; 0; 31; 139; 8; 0; 51; 33; 251; 106; 2; 255; 43; 78; 77; 206; 207; 75; 1; 0; 105; 17; 31; 182; 6; 0; 0; 0] = ([97; 98; 114; 97; 99; 97; 100; 97; 98; 114; 97; 32; 97; 98; 114; 97; 99; 97; 100; 97; 98; 114; 97; 32; 97; 98; 114; 97; 99; 97; 100; 97; 98; 114; 97; 32; 97; 98; 114; 97; 99; 97; 100; 97; 98; 114; 97; 32; 97; 98; 114; 97; 99; 97; 100; 97; 98; 114; 97; 32; 97; 98; 114; 97; 99; 97; 100; 97; 98; 114; 97; 32; 97; 98; 114; 97; 99; 97; 100; 97; 98; 114; 97; 32; 97; 98; 114; 97; 99; 97; 100; 97; 98; 114; 97; 32; 97; 98; 114; 97; 99; 97; 100; 97; 98; 114; 97; 32; 115; 101; 99; 111; 110; 100], false) /\ UnGzip ex_g [31; 139; 8; 30; 0; 0; 0; 0; 0; 3; 2; 0; 9; 9; 110; 97; 109; 101; 0; 99; 111; 109; 109; 0; 110; 180; 203; 72; 205; 201; 201; 7; 0; 134; 166; 16; 54; 5; 0; 0; 0] = ([104; 101; 108; 108; 111], false) /\
  UnGzip ex_g ([31; 139; 8; 30; 0; 0; 0; 0; 0; 3; 2; 0; 9; 9; 110; 97; 109; 101; 0; 99; 111; 109; 109; 0; 110; 180; 203; 72; 205; 201; 201; 7; 0; 134; 166; 16; 54; 5; 0; 0; 0] ++ [0]) = ([], true) /\ uUnGzip ex_g ([31; 139; 8; 30; 0; 0; 0; 0; 0; 3; 2; 0; 9; 9; 110; 97; 109; 101; 0; 99; 111; 109; 109; 0; 110; 180; 203; 72; 205; 201; 201; 7; 0; 134; 166; 16; 54; 5; 0; 0; 0] ++ [31; 139]) = ([], false) /\
  CheckGzipType ex_g [31; 139; 8; 0; 0; 0; 0; 0; 0; 255; 7; 7; 7] = false.
Proof. repeat split; vm_compute; reflexivity. Qed.

(** ** C137: streams that lost their end, and the contract of the packages *)

(** C137. A zlib stream that lost its end anywhere is reported by UnZlib; util.UnZlib delivers a beginning of the data. *)
Theorem c137_zlib_cut_is_reported : forall k out s x p, zlib s x -> p `prefix_of` s -> p <> s ->
  UnZlib (zlib_codec k out) p = ([], true) /\ (uUnZlib (zlib_codec k out) p).1 `prefix_of` x.
Proof.
  intros k out s x p Z Hp Hn. pose proof (zlib_cut s x p Z Hp Hn) as C. rewrite unzlib_is, uunzlib_is.
  destruct (zlib_read p) as [[d e]|]; [|split; [reflexivity|apply prefix_nil]]. destruct C as [C ->]. split; [reflexivity|exact C].
Qed.
Print Assumptions c137_zlib_cut_is_reported.
(** C137 is false of gzip files in general: one that was cut between two members is a file again. *)
Theorem c137_gzip_cut_is_reported_refuted : exists k out s x p y, gzip s x /\ p `prefix_of` s /\ p <> s /\ UnGzip (gzip_codec k out) p = (y, false) /\ y <> x.
Proof.
  set (m := [31; 139; 8; 0; 0; 0; 0; 0; 0; 255; 75; 4; 0; 67; 190; 183; 232; 1; 0; 0; 0]).
  assert (B : bytes m) by (repeat constructor; lia).
  assert (U : forall o, UnGzip (gzip_codec whole o) m = ([97], false)) by (intros o; rewrite ungzip_is; vm_compute; reflexivity).
  assert (G : gzip m [97]) by (apply (c136_ungzip_exact whole gstored m [97] B), U).
  exists whole, gstored, (m ++ m), [97; 97], m, [97]. split; [exact (gzip_app m [97] m [97] G G)|]. split; [exists m; reflexivity|].
  split; [discriminate|]. split; [apply U|discriminate].
Qed.
Print Assumptions c137_gzip_cut_is_reported_refuted.
(** C137. A file of one member, as Gzip and util.Gzip make them, that lost its end anywhere is reported by UnGzip; of any file that was
    cut, what is delivered is a beginning of the data.  (Missing: an error if the cut is between two members.) *)
Theorem c137_gzip_cut_partial : forall k out s x p, p `prefix_of` s ->
  (member s x -> p <> s -> UnGzip (gzip_codec k out) p = ([], true)) /\
  (gzip s x -> (UnGzip (gzip_codec k out) p).1 `prefix_of` x /\ (uUnGzip (gzip_codec k out) p).1 `prefix_of` x).
Proof.
  intros k out s x p Hp. rewrite ungzip_is. split.
  - intros M Hn. pose proof (member_cut s x p M Hp Hn) as C. destruct (gzip_read p) as [[d e]|]; [|reflexivity]. destruct C as [_ ->]. reflexivity.
  - intros G. pose proof (gzip_cut s x p G Hp) as C. pose proof (uungzip_is k out p) as U. destruct (gzip_read p) as [[d e]|].
    + destruct U as (_ & U & _). split; [destruct e; [exact C|apply prefix_nil]|]. etransitivity; [exact U|exact C].
    + rewrite U. split; apply prefix_nil.
Qed.
Print Assumptions c137_gzip_cut_partial.
(** C137. With these readers, the contract assumed in C65-C67 follows from the format of what the writers emit: nothing is assumed about reading. *)
Theorem c137_zlib_contract : forall k out, emits zheader zlib out -> conforming (zlib_codec k out).
Proof.
  intros k out W. split; cbn [zlib_codec reader sink].
  - intros lv x st B S. pose proof (em_closed _ _ _ W lv x st B S) as Z. pose proof (zlib_bytes _ _ Z) as Bs.
    destruct (as_reader_all k zlib_read (out lv x st)) as [[_ R]|(d & e & r & R & -> & D & E & _)].
    + rewrite (proj2 (zlib_read_iff _ x Bs)) in R; [discriminate|]. exists (out lv x st), []. rewrite app_nil_r. auto.
    + rewrite (proj2 (zlib_read_iff _ x Bs)) in R by (exists (out lv x st), []; rewrite app_nil_r; auto). exists r. split; [reflexivity|]. split; congruence.
  - intros lv x st p B S Hp Hn. pose proof (zlib_cut _ x p (em_closed _ _ _ W lv x st B S) Hp Hn) as C.
    destruct (as_reader_all k zlib_read p) as [[-> _]|(d & e & r & R & -> & D & E & _)]; [exact I|]. rewrite R in C. rewrite D, E. exact C.
  - intros lv x B. destruct (em_flushed _ _ _ W lv x B) as (h & s & -> & Zh & Bs & Bl). destruct (zlib_blocks h s (bits s) x Zh Bs ltac:(reflexivity) Bl) as (d & Z & _ & Ed).
    rewrite (Ed eq_refl) in Z. destruct (as_reader_all k zlib_read (h ++ s)) as [[_ R]|(d' & e & r & R & -> & D & E & _)]; [congruence|]. exists r. split; [reflexivity|]. split; congruence.
  - intros lv x B. destruct (em_written _ _ _ W lv x B) as (h & s & w & y & -> & Zh & Bs & Pw & Bl & Py & Ny). destruct (zlib_blocks h s w y Zh Bs Pw Bl) as (d & Z & P & _).
    destruct (as_reader_all k zlib_read (h ++ s)) as [[_ R]|(d' & e & r & R & -> & D & E & _)]; [congruence|]. exists r. assert (Dd : data r = d) by congruence. assert (Ee : eof r = false) by congruence. clear D E R.
    split; [reflexivity|]. split; [rewrite Dd; etransitivity; eassumption|]. split; [|exact Ee]. intros Hx Ex. apply (Ny Hx). rewrite <- Ex. apply (anti_symm prefix); [rewrite Ex; exact Py|rewrite Dd; exact P].
  - intros bs r. destruct (as_reader_all k zlib_read bs) as [[-> _]|(d & e & r' & _ & -> & _ & _ & C)]; [discriminate|]. intros [= <-]. exact C.
Qed.
Print Assumptions c137_zlib_contract.
(** C137. *)
Theorem c137_gzip_contract : forall k out, emits gheader member out -> conforming (gzip_codec k out).
Proof.
  intros k out W. split; cbn [gzip_codec reader sink].
  - intros lv x st B S. pose proof (g_one _ _ (em_closed _ _ _ W lv x st B S)) as Z. pose proof (gzip_bytes _ _ Z) as Bs. apply gzip_read_iff in Z; [|exact Bs].
    destruct (as_reader_all k gzip_read (out lv x st)) as [[_ R]|(d & e & r & R & -> & D & E & _)]; [congruence|]. exists r. split; [reflexivity|]. split; congruence.
  - intros lv x st p B S Hp Hn. pose proof (member_cut _ x p (em_closed _ _ _ W lv x st B S) Hp Hn) as C.
    destruct (as_reader_all k gzip_read p) as [[-> _]|(d & e & r & R & -> & D & E & _)]; [exact I|]. rewrite R in C. rewrite D, E. exact C.
  - intros lv x B. destruct (em_flushed _ _ _ W lv x B) as (h & s & -> & Zh & Bs & Bl). destruct (gzip_blocks h s (bits s) x Zh Bs ltac:(reflexivity) Bl) as (d & Z & _ & Ed).
    rewrite (Ed eq_refl) in Z. destruct (as_reader_all k gzip_read (h ++ s)) as [[_ R]|(d' & e & r & R & -> & D & E & _)]; [congruence|]. exists r. split; [reflexivity|]. split; congruence.
  - intros lv x B. destruct (em_written _ _ _ W lv x B) as (h & s & w & y & -> & Zh & Bs & Pw & Bl & Py & Ny). destruct (gzip_blocks h s w y Zh Bs Pw Bl) as (d & Z & P & _).
    destruct (as_reader_all k gzip_read (h ++ s)) as [[_ R]|(d' & e & r & R & -> & D & E & _)]; [congruence|]. exists r. assert (Dd : data r = d) by congruence. assert (Ee : eof r = false) by congruence. clear D E R.
    split; [reflexivity|]. split; [rewrite Dd; etransitivity; eassumption|]. split; [|exact Ee]. intros Hx Ex. apply (Ny Hx). rewrite <- Ex. apply (anti_symm prefix); [rewrite Ex; exact Py|rewrite Dd; exact P].
  - intros bs r. destruct (as_reader_all k gzip_read bs) as [[-> _]|(d & e & r' & _ & -> & _ & _ & C)]; [discriminate|]. intros [= <-]. exact C.
Qed.
Print Assumptions c137_gzip_contract.
(** C137. So for every writer of the formats: Zlib and Gzip are undone, ZlibLevel and util.Zlib are not. *)
Theorem c137_helpers : forall k zout gout x lv, emits zheader zlib zout -> emits gheader member gout -> bytes x -> -2 <= lv <= 9 ->
  let z := zlib_codec k zout in let g := gzip_codec k gout in
  UnZlib z (Zlib z x).1 = (x, false) /\ UnGzip g (Gzip g x).1 = (x, false) /\ uUnGzip g (uGzip g x).1 = (x, false) /\
  UnZlib z (ZlibLevel z x lv).1 = ([], true) /\ uUnZlib z (ZlibLevel z x lv).1 = (x, false) /\
  (x <> [] -> UnZlib z (uZlib z x).1 = ([], true) /\ uUnZlib z (uZlib z x).1 <> (x, false)).
Proof.
  intros k zout gout x lv Wz Wg B Hl z g. pose proof (c137_zlib_contract k zout Wz) as Cz. pose proof (c137_gzip_contract k gout Wg) as Cg.
  split; [exact (proj2 (c65_zlib_round_trip z x Cz B))|]. split; [exact (proj2 (c65_gzip_round_trip g x Cg B))|]. split; [exact (proj2 (c67_util_gzip_round_trip g x Cg B))|].
  split; [exact (proj2 (c66_zliblevel_never_decompresses z x lv Cz B Hl))|]. split; [exact (proj1 (c66_zliblevel_partial z x lv Cz B) Hl)|].
  intros Hx. destruct (c67_util_zlib_never_round_trips z x Cz B Hx) as (_ & (d & -> & _ & Hd) & E). split; [exact E|]. congruence.
Qed.
Print Assumptions c137_helpers.
(** The writers exist: streams of stored blocks. *)
Lemma stored_byte p out b : (p mod 8 = 0)%nat -> 0 <= b < 256 -> exists w, bits [0; 1; 0; 254; 255; b] = false :: w /\ block (S p) out w (out ++ [b]).
Proof.
  intros Hp Hb. exists (num 2 0 ++ repeat false 5 ++ num 16 1 ++ num 16 (65535 - 1) ++ bits [b]). split; [reflexivity|].
  apply b_stored; [|cbn; lia|reflexivity|lia|repeat constructor; lia]. cbn [repeat length]. replace (S p + 2 + 5)%nat with (p + 1 * 8)%nat by lia. rewrite Nat.mod_add by lia. exact Hp.
Qed.
Lemma stored_empty p out : (p mod 8 = 0)%nat -> exists w, bits [0; 0; 0; 255; 255] = false :: w /\ bits [1; 0; 0; 255; 255] = true :: w /\ block (S p) out w out.
Proof.
  intros Hp. exists (num 2 0 ++ repeat false 5 ++ num 16 0 ++ num 16 (65535 - 0) ++ bits []). split; [reflexivity|]. split; [reflexivity|].
  rewrite <- (app_nil_r out) at 2. apply b_stored; [|cbn; lia|reflexivity|lia|constructor]. cbn [repeat length]. replace (S p + 2 + 5)%nat with (p + 1 * 8)%nat by lia. rewrite Nat.mod_add by lia. exact Hp.
Qed.
Lemma stored_bytes x t : bytes x -> bytes t -> bytes (stored_blocks x ++ t).
Proof.
  intros B Bt. apply Forall_app_2; [|exact Bt]. induction B as [|b x Hb B IH]; [constructor|]. change (stored_blocks (b :: x)) with ([0; 1; 0; 254; 255; b] ++ stored_blocks x).
  apply Forall_app_2; [repeat constructor; lia|exact IH].
Qed.
Lemma stored_are_blocks x : bytes x -> forall p out t y, (p mod 8 = 0)%nat -> blocks (p + length (bits (stored_blocks x))) (out ++ x) t y -> blocks p out (bits (stored_blocks x) ++ t) y.
Proof.
  induction 1 as [|b x Hb B IH]; intros p out t y Hp H.
  - cbn [stored_blocks map concat bits flat_map length] in H. rewrite Nat.add_0_r, app_nil_r in H. exact H.
  - change (stored_blocks (b :: x)) with ([0; 1; 0; 254; 255; b] ++ stored_blocks x) in *. rewrite bits_app in *. destruct (stored_byte p out b Hp Hb) as (w & E & Bk).
    assert (Lw : length (false :: w) = 48%nat) by (rewrite <- E; reflexivity). rewrite E in *. cbn [app]. rewrite <- app_assoc. apply bs_more with (mid := out ++ [b]); [exact Bk|]. rewrite Lw. apply IH.
    + rewrite Nat.add_mod, Hp by lia. reflexivity.
    + rewrite app_length, Lw in H. rewrite <- Nat.add_assoc, <- app_assoc. exact H.
Qed.
Lemma bits8 l : (length (bits l) mod 8 = 0)%nat.
Proof. apply bits_mod8. Qed.
Lemma stored_deflate x z : bytes x -> z = [] \/ z = zsync -> deflate (stored_blocks x ++ z ++ [1; 0; 0; 255; 255]) x.
Proof.
  intros B Hz. split; [apply stored_bytes; [exact B|destruct Hz as [-> | ->]; repeat constructor; lia]|].
  exists (bits (stored_blocks x ++ z ++ [1; 0; 0; 255; 255])), []. split; [rewrite app_nil_r; reflexivity|]. split; [cbn; lia|].
  exists (bits (stored_blocks x ++ z)), x. destruct (stored_empty (length (bits (stored_blocks x ++ z))) x (bits8 _)) as (wl & _ & E & Bl). exists wl. split; [|split; [exact Bl|]].
  - rewrite bits_app. apply stored_are_blocks; [exact B|reflexivity|]. destruct Hz as [-> | ->]; [constructor|].
    destruct (stored_empty (0 + length (bits (stored_blocks x))) x (bits8 _)) as (w & Ew & _ & Bw). cbn [app]. unfold zsync. rewrite Ew, <- (app_nil_r w).
    apply bs_more with (mid := x); [exact Bw|constructor].
  - rewrite app_assoc, bits_app, E. reflexivity.
Qed.
Lemma stored_flushed x : bytes x -> bytes (stored_blocks x ++ zsync) /\ blocks 0 [] (bits (stored_blocks x ++ zsync)) x.
Proof.
  intros B. split; [apply stored_bytes; [exact B|repeat constructor; lia]|]. rewrite bits_app. apply stored_are_blocks; [exact B|reflexivity|].
  destruct (stored_empty (0 + length (bits (stored_blocks x))) x (bits8 _)) as (w & Ew & _ & Bw). cbn [app]. unfold zsync. rewrite Ew, <- (app_nil_r w).
  apply bs_more with (mid := x); [exact Bw|constructor].
Qed.
Theorem c137_writers_exist : emits zheader zlib (sink stored) /\ emits gheader member gstored.
Proof.
  assert (Zh : zheader zhead) by (exists 7, 156; repeat split; lia).
  assert (Gh : gheader [31; 139; 8; 0; 0; 0; 0; 0; 0; 255]).
  { exists 0, [0; 0; 0; 0; 0; 255], [], [], [], []. split; [reflexivity|]. split; [repeat constructor; lia|]. repeat split. }
  split; split; cbn [stored sink]; unfold gstored; cbv zeta.
  - intros lv x st B [-> | ->].
    + exists zhead, (stored_blocks x ++ [] ++ [1; 0; 0; 255; 255]). split; [unfold zend; rewrite adler_is, big_be, <- !app_assoc; reflexivity|]. split; [exact Zh|]. apply stored_deflate; auto.
    + exists zhead, (stored_blocks x ++ zsync ++ [1; 0; 0; 255; 255]). split; [unfold zend; rewrite adler_is, big_be, <- !app_assoc; reflexivity|]. split; [exact Zh|]. apply stored_deflate; auto.
  - intros lv x B. exists zhead, (stored_blocks x ++ zsync). split; [reflexivity|]. split; [exact Zh|]. apply stored_flushed, B.
  - intros lv x B. exists zhead, [], [], []. split; [reflexivity|]. split; [exact Zh|]. split; [constructor|]. split; [reflexivity|]. split; [constructor|]. split; [apply prefix_nil|]. intros Hx. congruence.
  - intros lv x st B [-> | ->].
    + exists [31; 139; 8; 0; 0; 0; 0; 0; 0; 255], (stored_blocks x ++ [] ++ [1; 0; 0; 255; 255]), (CRC32 x). split; [rewrite <- !app_assoc; reflexivity|]. split; [exact Gh|].
      split; [apply stored_deflate; auto|]. apply crc32_is; auto.
    + exists [31; 139; 8; 0; 0; 0; 0; 0; 0; 255], (stored_blocks x ++ zsync ++ [1; 0; 0; 255; 255]), (CRC32 x). split; [rewrite <- !app_assoc; reflexivity|]. split; [exact Gh|].
      split; [apply stored_deflate; auto|]. apply crc32_is; auto.
  - intros lv x B. exists [31; 139; 8; 0; 0; 0; 0; 0; 0; 255], (stored_blocks x ++ zsync). split; [reflexivity|]. split; [exact Gh|]. apply stored_flushed, B.
  - intros lv x B. exists [31; 139; 8; 0; 0; 0; 0; 0; 0; 255], [], [], []. split; [reflexivity|]. split; [exact Gh|]. split; [constructor|]. split; [reflexivity|]. split; [constructor|]. split; [apply prefix_nil|]. intros Hx. congruence.
Qed.
Print Assumptions c137_writers_exist.
Example c137_ex : UnZlib ex_z (Zlib ex_z [104; 105]).1 = ([104; 105], false) /\ UnZlib ex_z (removelast (Zlib ex_z [104; 105]).1) = ([], true) /\
  uUnZlib ex_z (firstn 9 (Zlib ex_z [104; 105]).1) = ([104], false) /\ UnGzip ex_g (Gzip ex_g [104; 105]).1 = ([104; 105], false) /\
  UnGzip ex_g (removelast (Gzip ex_g [104; 105]).1) = ([], true) /\ UnZlib ex_z (ZlibLevel ex_z [104; 105] 5).1 = ([], true).
Proof. repeat split; vm_compute; reflexivity. Qed.

(** ** C138: the size of what is returned *)

(** C138. Nothing that these functions return is longer than 1032 times their input. *)
Theorem c138_at_most_1032 : forall k out bs,
  (length (UnZlib (zlib_codec k out) bs).1 <= 1032 * length bs /\ length (uUnZlib (zlib_codec k out) bs).1 <= 1032 * length bs /\
   length (UnGzip (gzip_codec k out) bs).1 <= 1032 * length bs /\ length (uUnGzip (gzip_codec k out) bs).1 <= 1032 * length bs)%nat.
Proof.
  intros k out bs. rewrite unzlib_is, uunzlib_is, ungzip_is. pose proof (uungzip_is k out bs) as U.
  split; [|split; [|split]].
  - destruct (zlib_read bs) as [[d []]|] eqn:E; cbn [fst length]; try lia. exact (zlib_small _ _ _ E).
  - destruct (zlib_read bs) as [[d e]|] eqn:E; cbn [fst length]; try lia. exact (zlib_small _ _ _ E).
  - destruct (gzip_read bs) as [[d []]|] eqn:E; cbn [fst length]; try lia. exact (gzip_small _ _ _ E).
  - destruct (gzip_read bs) as [[d e]|] eqn:E; [|rewrite U; cbn [fst length]; lia]. destruct U as (_ & U & _). apply prefix_length in U. pose proof (gzip_small _ _ _ E). lia.
Qed.
Print Assumptions c138_at_most_1032.
(** C138. And the factor is reached: for every n there are inputs of n + 21 and of n + 33 bytes that UnZlib and UnGzip turn into 1032 n + 517 bytes, without an error. *)
Definition zbomb (n : nat) : list Z := zhead ++ bomb n ++ big 4 (adler32 (repeat 0 (517 + 1032 * n))).
Definition gbomb (n : nat) : list Z :=
  [31; 139; 8; 0; 0; 0; 0; 0; 0; 255] ++ bomb n ++ Crc_Spec.le_bytes 4 (CRC32 (repeat 0 (517 + 1032 * n))) ++ Crc_Spec.le_bytes 4 (Z.of_nat (length (repeat 0 (517 + 1032 * n)))).
Theorem c138_no_limit : forall k out n,
  length (zbomb n) = (n + 21)%nat /\ UnZlib (zlib_codec k out) (zbomb n) = (repeat 0 (517 + 1032 * n), false) /\
  length (gbomb n) = (n + 33)%nat /\ UnGzip (gzip_codec k out) (gbomb n) = (repeat 0 (517 + 1032 * n), false).
Proof.
  intros k out n. remember (repeat 0 (517 + 1032 * n)) as zs eqn:Ez. assert (Dn : deflate (bomb n) zs) by (subst zs; apply bomb_deflate).
  assert (Z : zlib (zbomb n) zs). { exists zhead, (bomb n). split; [subst zs; reflexivity|]. split; [|exact Dn]. exists 7, 156. repeat split; lia. }
  assert (G : gzip (gbomb n) zs).
  { apply g_one. exists [31; 139; 8; 0; 0; 0; 0; 0; 0; 255], (bomb n), (CRC32 zs). split; [subst zs; reflexivity|]. split; [|split; [exact Dn|]].
    - exists 0, [0; 0; 0; 0; 0; 255], [], [], [], []. split; [reflexivity|]. split; [repeat constructor; lia|]. repeat split.
    - apply crc32_is; [exact (deflate_bytes _ _ Dn)|reflexivity]. }
  split; [|split; [|split]].
  - unfold zbomb. rewrite !app_length, bomb_length, big_be, be_bytes_length. cbn. lia.
  - apply c135_unzlib_exact; [exact (zlib_bytes _ _ Z)|]. exists (zbomb n), []. rewrite app_nil_r. auto.
  - unfold gbomb. rewrite !app_length, bomb_length, !crc_le_bytes, !le_bytes_length. cbn. lia.
  - apply c136_ungzip_exact; [exact (gzip_bytes _ _ G)|exact G].
Qed.
Print Assumptions c138_no_limit.
Example c138_ex : bomb 3 = [237; 224; 129; 0; 0; 0; 0; 128; 32; 236; 79; 189; 72; 5; 0; 0; 0; 3] /\ uUnZlib ex_z [120; 156; 99; 96; 0; 0] = ([0; 0], false) /\
  forall n, n = 100%nat -> length (zbomb n) = (n + 21)%nat /\ UnZlib ex_z (zbomb n) = (repeat 0 (517 + 1032 * n), false).
Proof.
  split; [reflexivity|]. split; [vm_compute; reflexivity|]. intros n _. destruct (c138_no_limit whole (sink stored) n) as (A & B & _). exact (conj A B).
Qed.

(** ** C139: damage *)

(** C139. A member whose compressed data was replaced is accepted only if its data have the checksum and the length (modulo 2^32) of the original. *)
Theorem c139_altered_data : forall k out h d d' x y, gheader h -> deflate d x -> deflate d' y ->
  let s e := h ++ e ++ Crc_Spec.le_bytes 4 (CRC32 x) ++ Crc_Spec.le_bytes 4 (Z.of_nat (length x)) in
  UnGzip (gzip_codec k out) (s d) = (x, false) /\
  (UnGzip (gzip_codec k out) (s d') = (y, false) <-> CRC32 y = CRC32 x /\ Z.of_nat (length y) mod 2 ^ 32 = Z.of_nat (length x) mod 2 ^ 32) /\
  (UnGzip (gzip_codec k out) (s d') <> (y, false) -> UnGzip (gzip_codec k out) (s d') = ([], true)).
Proof.
  intros k out h d d' x y G D D' s.
  assert (Bx := deflate_bytes _ _ D). assert (By := deflate_bytes _ _ D').
  set (T := Crc_Spec.le_bytes 4 (CRC32 x) ++ Crc_Spec.le_bytes 4 (Z.of_nat (length x))).
  assert (BT : bytes T) by (apply Forall_app_2; apply le_bytes_bytes). assert (ET : skipn 8 T = []) by reflexivity.
  assert (R : forall e z, deflate e z -> gzip_read (s e) = Some (z, negb (length T <? 8)%nat && (le_val (firstn 4 T) =? CRC32 z) && (le_val (firstn 4 (skipn 4 T)) =? u32 (Z.of_nat (length z))))).
  { intros e z De. unfold gzip_read. rewrite (proj2 (readHeader_iff (s e) (e ++ T) ltac:(apply Forall_app_2; [exact (gheader_bytes h G)|]; apply Forall_app_2; [exact (proj1 De)|exact BT]))) by (exists h; auto).
    rewrite gunzip_S, (flate_complete e z T De), ET. destruct (_ && _ && _); reflexivity. }
  assert (C : forall z, bytes z -> (negb (length T <? 8)%nat && (le_val (firstn 4 T) =? CRC32 z) && (le_val (firstn 4 (skipn 4 T)) =? u32 (Z.of_nat (length z)))) = true <->
    CRC32 z = CRC32 x /\ Z.of_nat (length z) mod 2 ^ 32 = Z.of_nat (length x) mod 2 ^ 32).
  { intros z Bz. change (length T <? 8)%nat with false. cbn [negb andb]. rewrite andb_true_iff, !Z.eqb_eq.
    change (firstn 4 T) with (Crc_Spec.le_bytes 4 (CRC32 x)). change (firstn 4 (skipn 4 T)) with (Crc_Spec.le_bytes 4 (Z.of_nat (length x))).
    rewrite !crc_le_bytes, !le_val_bytes. change (8 * Z.of_nat 4) with 32. rewrite (Z.mod_small (CRC32 x)) by (apply crc32_range; exact Bx). unfold u32. intuition congruence. }
  rewrite !ungzip_is, (R d x D), (R d' y D'). rewrite (proj2 (C x Bx)) by auto. split; [reflexivity|]. pose proof (C y By) as Cy.
  destruct (negb (length T <? 8)%nat && (le_val (firstn 4 T) =? CRC32 y) && (le_val (firstn 4 (skipn 4 T)) =? u32 (Z.of_nat (length y)))).
  - split; [|congruence]. split; [intros _; apply Cy; reflexivity|reflexivity].
  - split; [|reflexivity]. split; [congruence|]. intros H. apply Cy in H. discriminate.
Qed.
Print Assumptions c139_altered_data.
(** C139. So if the data differ within 32 consecutive bits, in particular in one byte, it is reported. *)
Theorem c139_small_damage_is_reported : forall k out h d d' x y ps b, gheader h -> deflate d x -> deflate d' y ->
  Crc_Spec.flipped x y ps -> ps <> [] -> (forall p, In p ps -> (b <= p < b + 32)%nat) ->
  UnGzip (gzip_codec k out) (h ++ d' ++ Crc_Spec.le_bytes 4 (CRC32 x) ++ Crc_Spec.le_bytes 4 (Z.of_nat (length x))) = ([], true).
Proof.
  intros k out h d d' x y ps b G D D' F Hne Hb. destruct (c139_altered_data k out h d d' x y G D D') as (_ & [I _] & E). apply E. intros A. apply I in A. destruct A as [A _].
  exact (Crc_Props.c113_crc32_detects_bursts x y ps b (deflate_bytes _ _ D) (deflate_bytes _ _ D') F Hne Hb (eq_sym A)).
Qed.
Print Assumptions c139_small_damage_is_reported.
Example c139_ex : UnGzip ex_g (Gzip ex_g [104; 105]).1 = ([104; 105], false) /\ UnGzip ex_g (<[15%nat := 106]> (Gzip ex_g [104; 105]).1) = ([], true) /\
  nth 15 (Gzip ex_g [104; 105]).1 0 = 104.
Proof. repeat split; vm_compute; reflexivity. Qed.
