(** src/data/raw_parser.rs: from raw products to the catalogue and classic indexes. *)
From Verif.model Require Import Base F32 Utf8 Prim Coll Data Gram Indexer Nodes Classic Lit.

(** src/data/raw_parser.rs:32-42, [RawProduct] (with [CurrencyAmount], [ProductPrice],
    [MediaItem] 14-30 flattened: only the fields that are used: the minimum
    price amount, the image urls). *)
Record raw_product := RawProduct {
  r_description : rstr;
  r_tags : list rstr;
  r_title : rstr;
  r_vendor : rstr;
  r_id : rstr;
  r_options : list raw_option;
  r_price_min_amount : rstr;
  r_media : list rstr
}.

(** src/data/raw_parser.rs:50-59, [IntermediateRawProduct]; the two maps hold at most the
    keys "image_url" and "price". *)
Record intermediate := Intermediate {
  im_title : rstr;
  im_description : rstr;
  im_tags : list rstr;
  im_vendor : rstr;
  im_id : rstr;
  im_options : list raw_option;
  im_other_string : list (rstr * rstr);
  im_other_numeric : list (rstr * f32)
}.

Section raw.
  (** [str::parse::<f32>]: an arbitrary function here. *)
  Context (parse_f32 : rstr -> option f32).

  (** src/data/raw_parser.rs:61-95, [to_intermediate] on one product. *)
  Definition to_intermediate (raw : raw_product) : res intermediate :=
    (* 76-78: media.swap_remove(0) is the first item *)
    let other_string := match r_media raw with
                        | [] => []
                        | url :: _ => [(s_image_url, url)]
                        end in
    (* 82 *)
    price ← unwrap (parse_f32 (r_price_min_amount raw));
    Done (Intermediate (r_title raw) (r_description raw) (r_tags raw) (r_vendor raw) (r_id raw)
            (r_options raw) other_string [(s_price, price)]).

  (** Accumulators of the loop src/data/raw_parser.rs:115-154. *)
  Record opt_state := OptState {
    os_i : N;
    os_products : list product;
    os_features : feature_set;
    os_options : list (list raw_option);
    os_tags : list (list rstr)
  }.

  (** src/data/raw_parser.rs:115-154, one product. *)
  Definition optimize_step (vendors : vendor_manager) (st : opt_state) (raw : raw_product)
    : res opt_state :=
    im ← to_intermediate raw;
    my_vendor ← unwrap (vm_get vendors (im_vendor im));
    let p := Product (im_description im) (im_title im) my_vendor (im_id im) (os_i st) in
    features ← foldM (fun fs '(key, value) => fs_add_string fs key value)
                 (im_other_string im) (os_features st);
    features ← foldM (fun fs '(key, value) => fs_add_float fs key value)
                 (im_other_numeric im) features;
    Done (OptState (os_i st + 1) (os_products st ++ [p]) features
            (os_options st ++ [im_options im]) (os_tags st ++ [im_tags im])).

  (** src/data/raw_parser.rs:168-171 and 176-179, the price key of an order. *)
  Definition price_maker (p : product) (extra : feature_set) : res f32 :=
    match fs_get extra p s_price with
    | Some (VFloat v) => Done v
    | _ => Panic
    end.

  (** src/data/raw_parser.rs:97-191, [optimize]. *)
  Definition optimize (o : build_order) (input : list raw_product) : res (container * classic) :=
    (* 101-106 *)
    let vendors := foldl (fun vm p => vm_insert vm (r_vendor p)) vm_new input in
    (* 115-154 *)
    st ← foldM (optimize_step vendors) input (OptState 0 [] ∅ [] []);
    let out := Container (os_products st) vendors (os_features st) in
    (* 160 *)
    tags ← tag_index_build (bo_tags o) (os_tags st) out;
    (* 162-186 *)
    let order : order_index := ∅ in
    order ← order_add order out (fun p _ => Done (p_title p))
              (fun a b => Some (str_cmp a b)) s_alphabetical;
    order ← order_add order out price_maker f32_cmp s_price_up;
    order ← order_add_custom_cmp order out price_maker
              (fun a b => reverse_ord (unwrap_or_equal (f32_cmp a b))) s_price_down;
    (* 188 *)
    categories ← category_index_build (os_options st) out;
    Done (out, Classic categories tags order).
End raw.
