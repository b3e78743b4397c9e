*.vo
*.vok
*.vos
*.glob
*.aux
.*.aux
Makefile.conf
.Makefile.d
.lia.cache
.nia.cache
