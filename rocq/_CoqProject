-Q theories Verif
theories/Ack_Model.v
theories/Ack_Proofs.v
theories/Ack_Props.v
theories/Ack_Spec.v
theories/Address_Model.v
theories/Address_Proofs.v
theories/Address_Props.v
theories/Address_Spec.v
theories/Agree_Model.v
theories/Agree_Proofs.v
theories/Agree_Props.v
theories/Agree_Spec.v
theories/Allow_Model.v
theories/Allow_Proofs.v
theories/Allow_Props.v
theories/Allow_Spec.v
theories/Attr_Model.v
theories/Attr_Props.v
theories/Attr_Spec.v
theories/Attrget_Model.v
theories/Attrget_Proofs.v
theories/Attrget_Props.v
theories/Attrget_Spec.v
theories/Base.v
theories/Bloom_Count.v
theories/Bloom_Decay.v
theories/Bloom_Model.v
theories/Bloom_Nbf.v
theories/Bloom_Props.v
theories/Bloom_Spec.v
theories/Bloom_Std.v
theories/Cbor_Model.v
theories/Cbor_Proofs.v
theories/Chain_Model.v
theories/Chain_Proofs.v
theories/Chain_Props.v
theories/Chain_Spec.v
theories/Channel_Model.v
theories/Channel_Proofs.v
theories/Channel_Props.v
theories/Channel_Spec.v
theories/Data_Model.v
theories/Data_Proofs.v
theories/Data_Props.v
theories/Data_Spec.v
theories/Deliver_Model.v
theories/Deliver_Proofs.v
theories/Deliver_Props.v
theories/Deliver_Spec.v
theories/Dhkey_Model.v
theories/Dhkey_Proofs.v
theories/Dhkey_Props.v
theories/Dhkey_Spec.v
theories/Discover_Model.v
theories/Discover_Proofs.v
theories/Discover_Props.v
theories/Discover_Spec.v
theories/Eventqueue_Model.v
theories/Eventqueue_Proofs.v
theories/Eventqueue_Props.v
theories/Eventqueue_Spec.v
theories/Flood_Model.v
theories/Flood_Proofs.v
theories/Flood_Props.v
theories/Flood_Spec.v
theories/Heap_Model.v
theories/Heap_Proofs.v
theories/Heap_Props.v
theories/Heap_Spec.v
theories/Http_Model.v
theories/Http_Proofs.v
theories/Http_Props.v
theories/Http_Spec.v
theories/Idfile_Model.v
theories/Idfile_Proofs.v
theories/Idfile_Props.v
theories/Idfile_Spec.v
theories/In_Model.v
theories/In_Proofs.v
theories/In_Props.v
theories/In_Spec.v
theories/Intent_Model.v
theories/Intent_Proofs.v
theories/Intent_Props.v
theories/Intent_Spec.v
theories/Issue_Model.v
theories/Issue_Proofs.v
theories/Issue_Props.v
theories/Issue_Spec.v
theories/Jobqueue_Model.v
theories/Jobqueue_Proofs.v
theories/Jobqueue_Props.v
theories/Key_Flat.v
theories/Key_Model.v
theories/Key_Proofs.v
theories/Key_Props.v
theories/Key_Spec.v
theories/Keycache_Model.v
theories/Keycache_Proofs.v
theories/Keycache_Props.v
theories/Keycache_Spec.v
theories/Life_Model.v
theories/Life_Proofs.v
theories/Life_Props.v
theories/Life_Spec.v
theories/Link_Model.v
theories/Link_Proofs.v
theories/Link_Props.v
theories/Link_Spec.v
theories/Lists_Model.v
theories/Lists_Proofs.v
theories/Lists_Props.v
theories/Lists_Spec.v
theories/Lock_Model.v
theories/Lock_Proofs.v
theories/Lock_Props.v
theories/Lock_Spec.v
theories/Memory_Conc.v
theories/Memory_Model.v
theories/Memory_Proofs.v
theories/Memory_Props.v
theories/Memory_Spec.v
theories/Message_Model.v
theories/Message_Proofs.v
theories/Message_Props.v
theories/Message_Spec.v
theories/Metrics_Model.v
theories/Metrics_Proofs.v
theories/Metrics_Props.v
theories/Metrics_Spec.v
theories/Minhash_Model.v
theories/Minhash_Proofs.v
theories/Minhash_Props.v
theories/Minhash_Spec.v
theories/Minhash_Tree.v
theories/Mx_Model.v
theories/Mx_Proofs.v
theories/Mx_Props.v
theories/Mx_Spec.v
theories/Net_Model.v
theories/Net_Proofs.v
theories/Net_Props.v
theories/Net_Spec.v
theories/Out_Model.v
theories/Out_Proofs.v
theories/Out_Props.v
theories/Out_Spec.v
theories/Parts_Model.v
theories/Parts_Proofs.v
theories/Parts_Props.v
theories/Parts_Spec.v
theories/Pheromone_Facts.v
theories/Pheromone_Filter.v
theories/Pheromone_Hist.v
theories/Pheromone_Model.v
theories/Pheromone_Proofs.v
theories/Pheromone_Props.v
theories/Pheromone_Sim.v
theories/Pheromone_Spec.v
theories/Rbtree_Model.v
theories/Rbtree_Proofs.v
theories/Rbtree_Spec.v
theories/Rng_Model.v
theories/Rng_Props.v
theories/Rng_Spec.v
theories/Route_Hist.v
theories/Route_Leaf.v
theories/Route_Look.v
theories/Route_Model.v
theories/Route_Proofs.v
theories/Route_Props.v
theories/Route_Sched.v
theories/Route_Spec.v
theories/Scache_Model.v
theories/Scache_Props.v
theories/Scache_Spec.v
theories/Scent_Model.v
theories/Scent_Proofs.v
theories/Scent_Props.v
theories/Scent_Spec.v
theories/Secure_Model.v
theories/Secure_Proofs.v
theories/Secure_Props.v
theories/Secure_Spec.v
theories/Skiplist_Model.v
theories/Skiplist_Proofs.v
theories/Skiplist_Props.v
theories/Skiplist_Spec.v
theories/Statemachine_Model.v
theories/Statemachine_Props.v
theories/Statemachine_Spec.v
theories/Subject_Model.v
theories/Subject_Proofs.v
theories/Subject_Props.v
theories/Subject_Spec.v
theories/TokenData_Props.v
theories/Token_Model.v
theories/Token_Proofs.v
theories/Token_Props.v
theories/Token_Spec.v
theories/Tree_Model.v
theories/Tree_Proofs.v
theories/Tree_Props.v
theories/Tree_Spec.v
theories/Treeval_Model.v
theories/Treeval_Proofs.v
theories/Treeval_Props.v
theories/Treeval_Spec.v
theories/Trie_Model.v
theories/Trie_Proofs.v
theories/Trie_Props.v
theories/Trie_Spec.v
theories/Uuid_Model.v
theories/Uuid_Proofs.v
theories/Uuid_Props.v
theories/Uuid_Spec.v
theories/Wire_Model.v
theories/Wire_Proofs.v
theories/Wire_Props.v
theories/Wire_Spec.v
