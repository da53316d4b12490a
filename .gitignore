*.nia.cache
.nia.cache
.lia.cache
.nra.cache
