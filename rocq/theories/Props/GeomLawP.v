(** * C71: how crop, overlay, translate, reflect and per-sample maps compose *)
From Verif.Proofs Require Import BaseL ImageL ImageOps ImageProps Safe TransformL.
From Verif.Props Require Import TransformP.
Open Scope Z_scope.

Ltac cases := repeat match goal with
  | |- context [Z.leb ?a ?b] => destruct (Z.leb_spec a b)
  | |- context [Z.ltb ?a ?b] => destruct (Z.ltb_spec a b) end; cbn [andb]; try lia.

(** cropping a crop is cropping once, at the sum of the offsets *)
Theorem C71_crop_crop p {T} (N : number T) (img : image T) x y w h x' y' w' h' :
  wf img -> 0 <= x -> 0 <= y -> x + w < width (info_of img) -> y + h < height (info_of img) ->
  0 <= x' -> 0 <= y' -> 0 <= w' -> 0 <= h' -> x' + w' < w -> y' + h' < h ->
  (let! o := crop_seq p N img x y w h in crop_seq p N o x' y' w' h') = crop_seq p N img (x + x') (y + y') w' h'.
Proof.
  intros W Hx Hy Hw Hh Hx' Hy' Hw' Hh' Hr Hb.
  destruct (crop_seq_ok p N img x y w h W) as [o (E & Wo & Io & Po)]; try lia.
  destruct (crop_seq_ok p N o x' y' w' h' Wo) as [o2 (E2 & Wo2 & Io2 & Po2)]; rewrite ?Io; cbn [width height]; try lia.
  destruct (crop_seq_ok p N img (x + x') (y + y') w' h' W) as [o3 (E3 & Wo3 & Io3 & Po3)]; try lia.
  rewrite E, bind_Ret, E2, E3. f_equal. apply image_ext; auto; [rewrite Io2, Io3, Io; reflexivity|].
  intros i j Hin. pose proof Hin as Hin2. unfold inside in Hin2. rewrite Io2 in Hin2. cbn [width height] in Hin2.
  rewrite Po2 by exact Hin. rewrite Po, Po3; [f_equal; lia| |]; unfold inside; rewrite ?Io, ?Io3; cbn [width height]; lia.
Qed.

(** what has been overlaid can be cropped out again *)
Theorem C71_overlay_crop p {T} (N : number T) (back front : image T) x y :
  wf back -> wf front -> 0 <= x -> 0 <= y ->
  channels (info_of back) = channels (info_of front) -> alpha (info_of back) = alpha (info_of front) ->
  x + width (info_of front) < width (info_of back) -> y + height (info_of front) < height (info_of back) ->
  (let! o := overlay p back front x y in crop_seq p N o x y (width (info_of front)) (height (info_of front))) = Ret front.
Proof.
  intros Wb Wf Hx Hy Hc Ha Hw Hh. pose proof Wb as [? ? _ _ _ _]. pose proof Wf as [? ? _ _ _ _].
  destruct (C18_overlay p back front x y Wb Wf Hx Hy ltac:(lia) ltac:(lia) Hc) as [o (E & Wo & Io & Po)].
  rewrite E, bind_Ret.
  destruct (crop_seq_ok p N o x y (width (info_of front)) (height (info_of front)) Wo) as [o2 (E2 & Wo2 & Io2 & Po2)]; rewrite ?Io; try lia.
  rewrite E2. f_equal. apply image_ext; auto.
  - rewrite Io2, Io, Hc, Ha. destruct (info_of front); reflexivity.
  - intros i j Hin. pose proof Hin as Hin2. unfold inside in Hin2. rewrite Io2 in Hin2. cbn [width height] in Hin2.
    rewrite Po2 by exact Hin. rewrite Po by (split; lia).
    replace (x <=? x + i) with true by lia. replace (x + i <? x + width (info_of front)) with true by lia.
    replace (y <=? y + j) with true by lia. replace (y + j <? y + height (info_of front)) with true by lia. cbn [andb]. f_equal; lia.
Qed.

(** putting a crop back where it came from changes nothing *)
Theorem C71_crop_overlay p {T} (N : number T) (img : image T) x y w h :
  wf img -> 0 <= x -> 0 <= y -> 0 <= w -> 0 <= h -> x + w < width (info_of img) -> y + h < height (info_of img) ->
  (let! o := crop_seq p N img x y w h in overlay p img o x y) = Ret img.
Proof.
  intros W Hx Hy Hw Hh Hr Hb. pose proof W as [? ? _ _ _ _].
  destruct (crop_seq_ok p N img x y w h W) as [o (E & Wo & Io & Po)]; try lia.
  rewrite E, bind_Ret.
  destruct (C18_overlay p img o x y W Wo Hx Hy) as [o2 (E2 & Wo2 & Io2 & Po2)]; rewrite ?Io; cbn [width height channels]; try lia.
  rewrite E2. f_equal. apply image_ext; auto. intros i j Hin. rewrite Po2 by (unfold inside in *; rewrite <- Io2; exact Hin).
  rewrite Io. cbn [width height].
  destruct ((x <=? i) && (i <? x + w) && (y <=? j) && (j <? y + h)) eqn:C; [|reflexivity].
  rewrite Po by (unfold inside; rewrite Io; cbn [width height]; lia). f_equal; lia.
Qed.

(** the last overlay wins, and overlaying twice is overlaying once *)
Theorem C71_overlay_twice p {T} (back f1 f2 : image T) x y :
  wf back -> wf f1 -> wf f2 -> 0 <= x -> 0 <= y -> info_of f1 = info_of f2 ->
  x + width (info_of f1) <= u32_max -> y + height (info_of f1) <= u32_max -> channels (info_of back) = channels (info_of f1) ->
  (let! o := overlay p back f1 x y in overlay p o f2 x y) = overlay p back f2 x y.
Proof.
  intros Wb W1 W2 Hx Hy I Hw Hh Hc.
  destruct (C18_overlay p back f1 x y Wb W1 Hx Hy Hw Hh Hc) as [o (E & Wo & Io & Po)]. rewrite E, bind_Ret.
  rewrite I in Hw, Hh, Hc.
  destruct (C18_overlay p back f2 x y Wb W2 Hx Hy Hw Hh Hc) as [o2 (E2 & Wo2 & Io2 & Po2)].
  destruct (C18_overlay p o f2 x y Wo W2 Hx Hy Hw Hh) as [o3 (E3 & Wo3 & Io3 & Po3)]; [congruence|].
  rewrite E2, E3. f_equal. apply image_ext; auto; [congruence|]. intros i j Hin.
  assert (Hb : inside back i j) by (unfold inside in *; rewrite <- Io, <- Io3; exact Hin).
  assert (Ho : inside o i j) by (unfold inside in *; rewrite Io; exact Hb).
  rewrite (Po3 i j Ho), (Po2 i j Hb), (Po i j Hb), I. destruct (_ && _ && _ && _); reflexivity.
Qed.

(** translations add up *)
Theorem C71_translate_translate p {T} (N : number T) (img : image T) x y x' y' :
  wf img -> 0 <= x -> 0 <= y -> 0 <= x' -> 0 <= y' ->
  (let! o := translate p N img x y in translate p N o x' y') = translate p N img (x + x') (y + y').
Proof.
  intros W Hx Hy Hx' Hy'.
  destruct (C20_translate p N img x y W Hx Hy) as [o (E & Wo & Io & Po)].
  destruct (C20_translate p N o x' y' Wo Hx' Hy') as [o2 (E2 & Wo2 & Io2 & Po2)].
  destruct (C20_translate p N img (x + x') (y + y') W ltac:(lia) ltac:(lia)) as [o3 (E3 & Wo3 & Io3 & Po3)].
  rewrite E, bind_Ret, E2, E3. f_equal. apply image_ext; auto; [congruence|]. intros i j Hin.
  assert (Ho : inside o i j) by (unfold inside in *; rewrite <- Io2; exact Hin).
  assert (Hi : inside img i j) by (unfold inside in *; rewrite <- Io; exact Ho).
  rewrite (Po2 i j Ho), (Po3 i j Hi), Io. destruct Hi as [? ?].
  destruct (Z.leb_spec x' i), (Z.leb_spec y' j); cbn [andb].
  - rewrite Po by (split; lia). cases; try reflexivity. f_equal; lia.
  - cases; reflexivity.
  - cases; reflexivity.
  - cases; reflexivity.
Qed.

(** cropping a mirrored image is mirroring the crop of the mirrored rectangle *)
Theorem C71_reflect_crop p {T} (N : number T) (img : image T) x y w h :
  wf img -> 0 < x -> 0 < y -> 0 <= w -> 0 <= h -> x + w < width (info_of img) -> y + h < height (info_of img) ->
  (let! o := reflect_image p N img Vertical in crop_seq p N o x y w h)
    = (let! o := crop_seq p N img (width (info_of img) - w - x) y w h in reflect_image p N o Vertical)
  /\ (let! o := reflect_image p N img Horizontal in crop_seq p N o x y w h)
    = (let! o := crop_seq p N img x (height (info_of img) - h - y) w h in reflect_image p N o Horizontal).
Proof.
  intros W Hx Hy Hw Hh Hr Hb. split.
  - destruct (C21_reflect p N img Vertical W) as [o (E & Wo & Io & Po)].
    destruct (crop_seq_ok p N o x y w h Wo) as [o2 (E2 & Wo2 & Io2 & Po2)]; rewrite ?Io; try lia.
    destruct (crop_seq_ok p N img (width (info_of img) - w - x) y w h W) as [c (Ec & Wc & Ic & Pc)]; try lia.
    destruct (C21_reflect p N c Vertical Wc) as [c2 (Ec2 & Wc2 & Ic2 & Pc2)].
    rewrite E, Ec, !bind_Ret, E2, Ec2. f_equal. apply image_ext; auto; [rewrite Ic2, Io2, Ic, Io; reflexivity|]. intros i j Hin.
    pose proof Hin as Hin2. unfold inside in Hin2. rewrite Io2 in Hin2. cbn [width height] in Hin2.
    rewrite (Po2 i j Hin), Po by (split; lia). rewrite Pc2 by (unfold inside; rewrite Ic; exact Hin2).
    rewrite Pc by (unfold inside; rewrite Ic; cbn [width height]; lia). rewrite Ic. cbn [width]. f_equal; lia.
  - destruct (C21_reflect p N img Horizontal W) as [o (E & Wo & Io & Po)].
    destruct (crop_seq_ok p N o x y w h Wo) as [o2 (E2 & Wo2 & Io2 & Po2)]; rewrite ?Io; try lia.
    destruct (crop_seq_ok p N img x (height (info_of img) - h - y) w h W) as [c (Ec & Wc & Ic & Pc)]; try lia.
    destruct (C21_reflect p N c Horizontal Wc) as [c2 (Ec2 & Wc2 & Ic2 & Pc2)].
    rewrite E, Ec, !bind_Ret, E2, Ec2. f_equal. apply image_ext; auto; [rewrite Ic2, Io2, Ic, Io; reflexivity|]. intros i j Hin.
    pose proof Hin as Hin2. unfold inside in Hin2. rewrite Io2 in Hin2. cbn [width height] in Hin2.
    rewrite (Po2 i j Hin), Po by (split; lia). rewrite Pc2 by (unfold inside; rewrite Ic; exact Hin2).
    rewrite Pc by (unfold inside; rewrite Ic; cbn [width height]; lia). rewrite Ic. cbn [height]. f_equal; lia.
Qed.

(** a per-sample map may be done before or after the geometric operation; for translate (which
    fills with zeros) if the map keeps zero *)
Theorem C71_map_commutes p {T S} (N : number T) (M : number S) (f : T -> S) (img front : image T) x y w h axis :
  wf img -> wf front -> 0 <= x -> 0 <= y -> 0 <= w -> 0 <= h ->
  let mapf := fun i : image T => map_channels p (fun c => Ret (f c)) i in
  (x + w < width (info_of img) -> y + h < height (info_of img) ->
     (let! o := crop_seq p N img x y w h in mapf o) = (let! m := mapf img in crop_seq p M m x y w h))
  /\ (let! o := reflect_image p N img axis in mapf o) = (let! m := mapf img in reflect_image p M m axis)
  /\ (f (n_zero N) = n_zero M -> (let! o := translate p N img x y in mapf o) = (let! m := mapf img in translate p M m x y))
  /\ (x + width (info_of front) <= u32_max -> y + height (info_of front) <= u32_max -> channels (info_of img) = channels (info_of front) ->
     (let! o := overlay p img front x y in mapf o) = (let! m := mapf img in let! m' := mapf front in overlay p m m' x y)).
Proof.
  intros W Wf Hx Hy Hw Hh mapf. subst mapf. cbv beta.
  set (m := Image (info_of img) (map f (data img))). assert (Wm : wf m) by (apply map_data_wf; exact W).
  assert (Em : map_channels p (fun c => Ret (f c)) img = Ret m) by (apply map_channels_pure; exact W).
  assert (Pm : forall i j, pixel_at m i j = map f (pixel_at img i j)) by (intros; apply pixel_at_map).
  rewrite Em, !bind_Ret. split; [|split; [|split]].
  - intros Hr Hb. destruct (crop_seq_ok p N img x y w h W) as [o (E & Wo & Io & Po)]; try lia.
    destruct (crop_seq_ok p M m x y w h Wm) as [o2 (E2 & Wo2 & Io2 & Po2)]; try (cbn [m info_of]; lia).
    rewrite E, bind_Ret, E2, map_channels_pure by exact Wo. f_equal. apply image_ext; [apply map_data_wf; exact Wo|exact Wo2| |].
    + cbn [info_of]. rewrite Io, Io2. reflexivity.
    + intros i j Hin. rewrite pixel_at_map, Po by exact Hin. rewrite Po2, Pm; [reflexivity|].
      unfold inside in *. cbn [info_of] in Hin. rewrite Io in Hin. rewrite Io2. exact Hin.
  - destruct (C21_reflect p N img axis W) as [o (E & Wo & Io & Po)]. destruct (C21_reflect p M m axis Wm) as [o2 (E2 & Wo2 & Io2 & Po2)].
    rewrite E, bind_Ret, E2, map_channels_pure by exact Wo. f_equal. apply image_ext; [apply map_data_wf; exact Wo|exact Wo2| |].
    + cbn [info_of]. rewrite Io, Io2. reflexivity.
    + intros i j Hin. unfold inside in Hin. cbn [info_of] in Hin. rewrite Io in Hin. rewrite pixel_at_map, Po by exact Hin. rewrite Po2 by exact Hin.
      destruct axis; rewrite Pm; reflexivity.
  - intros Hz. destruct (C20_translate p N img x y W Hx Hy) as [o (E & Wo & Io & Po)]. destruct (C20_translate p M m x y Wm Hx Hy) as [o2 (E2 & Wo2 & Io2 & Po2)].
    rewrite E, bind_Ret, E2, map_channels_pure by exact Wo. f_equal. apply image_ext; [apply map_data_wf; exact Wo|exact Wo2| |].
    + cbn [info_of]. rewrite Io, Io2. reflexivity.
    + intros i j Hin. unfold inside in Hin. cbn [info_of] in Hin. rewrite Io in Hin. rewrite pixel_at_map, Po by exact Hin. rewrite Po2 by exact Hin.
      cbn [m info_of]. destruct ((x <=? i) && (y <=? j)); [rewrite Pm; reflexivity|]. rewrite <- Hz. generalize (Z.to_nat (channels (info_of img))). intros n. induction n; cbn; congruence.
  - intros Hr Hb Hc. set (m' := Image (info_of front) (map f (data front))). assert (Wm' : wf m') by (apply map_data_wf; exact Wf).
    assert (Em' : map_channels p (fun c => Ret (f c)) front = Ret m') by (apply map_channels_pure; exact Wf). rewrite Em', bind_Ret.
    destruct (C18_overlay p img front x y W Wf Hx Hy Hr Hb Hc) as [o (E & Wo & Io & Po)].
    destruct (C18_overlay p m m' x y Wm Wm' Hx Hy Hr Hb Hc) as [o2 (E2 & Wo2 & Io2 & Po2)].
    rewrite E, bind_Ret, E2, map_channels_pure by exact Wo. f_equal. apply image_ext; [apply map_data_wf; exact Wo|exact Wo2| |].
    + cbn [info_of]. rewrite Io, Io2. reflexivity.
    + intros i j Hin. unfold inside in Hin. cbn [info_of] in Hin. rewrite Io in Hin. rewrite pixel_at_map, Po by exact Hin. rewrite Po2 by exact Hin.
      cbn [m' info_of]. destruct (_ && _ && _ && _); [unfold m'; rewrite pixel_at_map; reflexivity|rewrite Pm; reflexivity].
Qed.

Definition ex_front : image Z := Image (Info 2 1 1 false) [91; 92].
Example C71_example : wf ex_gray /\ wf ex_front /\ 1 + 2 < width (info_of ex_gray) /\ 1 + 1 < height (info_of ex_gray)
  /\ channels (info_of ex_gray) = channels (info_of ex_front) /\ alpha (info_of ex_gray) = alpha (info_of ex_front)
  /\ match (let! o := overlay Debug ex_gray ex_front 1 1 in crop_seq Debug num_u8 o 1 1 2 1) with Ret o => data o | _ => [] end = [91; 92]
  /\ match (let! o := translate Debug num_u8 ex_gray 1 0 in translate Debug num_u8 o 1 1) with Ret o => data o | _ => [] end
     = [0;0;0;0; 0;0;1;2; 0;0;5;6].
Proof. conj; try apply ex_gray_wf; try (apply wfb_wf; reflexivity); cbn; try lia; reflexivity. Qed.
Print Assumptions C71_map_commutes.
