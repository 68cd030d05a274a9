import json
M={}
def c(p,st,th,note): M[p]=dict(property=p,status=st,theorems=th,note=note)
c("C01","proved",["C01_map_is_association_list"],"simulation of slice+index by a plain list, all histories, any value type")
c("C02","proved",["C02_keys_unique"],"invariant of every reachable state")
c("C03","proved",["C03_put_appends"],"")
c("C04","proved",["C04_replace_keeps_position"],"")
c("C05","proved",["C05_delete_removes_one"],"")
c("C06","proved",["C06_string_maps_never_panic"],"")
c("C07","proved",["C07_put_if_not_nil"],"")
c("C08","proved",["C08_for_each_in_order"],"")
c("C09","partial",["C09_for_each_editing_refuted","C09_for_each_editing_partial","C09_deleting_refuted","C09_putting_refuted","C09_deleting_nothing_partial"],"REFUTED, for every map with two or more entries: deleting the given entry in the callback panics, putting it again skips the second entry. Proved for callbacks that replace, add or look; callbacks that delete nothing never make it panic.")
c("C12","proved",["C12_json_of_string_maps"],"")
c("C13","partial",["C13_any_map_json_refuted","C13_any_map_json_partial","C13_deterministic_partial","C13_complete_partial"],"REFUTED: keys 1 and \"1\" collide. Proved when the texts of the keys differ; it is deterministic exactly when keys with one text have one value, and complete exactly when no two keys have one text.")
c("C14","partial",["C14_any_key_refuted","C14_any_key_partial","C14_other_keys_refuted"],"REFUTED for NaN and for every unhashable key, in every map. Proved for all other keys.")
c("C15","partial",["C15_copies_refuted","C15_copies_partial"],"REFUTED: a struct copy shares the slice and the index. Proved: own view right for every growth policy, frame, append-only edits.")
exec(open('/verif/tools/manifest_more.py').read())
for l in open('/verif/properties.jsonl'):
    i=json.loads(l)['id']
    if i not in M: c(i,"partial",[],"not yet proved")
json.dump({"claims":[M[k] for k in sorted(M)]},open('/verif/MANIFEST.json','w'),indent=1)
